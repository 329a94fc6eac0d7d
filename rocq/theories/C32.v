(* C32: the resource index is crash consistent. *)
From Coq Require Import List NArith ZArith Lia Bool Arith ZifyBool ZifyN ZifyNat.
From Verif Require Import Bytes Codec Leader Sizes Rindex RindexProof RindexOps RindexCrash C33 C34.
Import ListNotations.
Open Scope Z_scope.
Local Opaque strncmp_eq.

(* ---- specification ---- *)
(* index_good (RindexCrash): every entry with a name has at its area a lease of
   that name.  The operations cut short by a crash or an I/O error are the
   operations with failing outcomes. *)

(* the operations as callers may issue them, writes behaving like writes *)
Definition any_op (d : rdisk) (o : rop) : Prop :=
  match o with
  | OpCreate n i u => name_ok n /\ iout_ok i /\ iout_ok u
  | OpDelete n _ u i => name_ok n /\ iout_ok u /\ iout_ok i
  | OpUpdate n off _ _ u => name_ok n /\ iout_ok u /\ 0 <= off < 2 ^ 64
  | OpRebuild _ _ _ => True
  end.

(* a rebuild that reports success has every lease it can have in the index *)
Definition recovered (g : geom) (d d' : rdisk) : Prop :=
  forall i nm, Z.of_nat i < max_of g -> d_lease d (slot_off g i) = Some nm ->
    entry_at g (d_area d') i = Some (new_entry nm (slot_off g i)).

(* Full claim *)
Definition C32_statement : Prop :=
  forall g d0 d, geom_ok g -> disk_ok g d0 -> leases_ok d0 -> index_good g d0 ->
    rhist g any_op d0 d ->
    index_good g d /\
    forall rd torn off d', rindex_rebuild g d rd 0 torn = ORet 0 off d' -> recovered g d d'.

(* What holds needs: no allocation failure in the two writes of create and delete
   that come first; updates only for an offset which denotes an entry, adding a
   name only where a lease of that name is; a rebuild in which no lease is
   unreadable. *)
Definition disciplined (g : geom) (d : rdisk) (o : rop) : Prop :=
  any_op d o /\
  match o with
  | OpCreate _ i _ => no_nomem i
  | OpDelete _ _ u _ => no_nomem u
  | OpUpdate n off rem add _ =>
      exists k, denotes g off k /\
        (rem = false -> add = true -> exists nm, d_lease d (slot_off g k) = Some nm /\ nstr nm = nstr n)
  | OpRebuild _ _ _ => True
  end.

Lemma leases_set (g : geom) d off name : leases_ok d -> name_ok name -> leases_ok (set_lease d off (Some name)).
Proof. intros L N o nm. cbn. destruct (o =? off); [intros E; injection E as <-; exact N|apply L]. Qed.

Lemma jinv_step g d o rv off d' :
  geom_ok g -> jinv g d -> disciplined g d o -> apply_op g d o = ORet rv off d' -> jinv g d'.
Proof.
  intros G (D & Lo & J) (A & K) H. destruct o as [name init upd|name ro upd init|name uo rem add upd|rd rv0 torn]; cbn [apply_op] in H.
  - destruct A as (N0 & O1 & O2). cbn in K.
    pose proof (create_cases g d name init upd G D N0) as C. rewrite H in C.
    destruct C as [(_ & -> & _)|(i & re & Hi & Ei & Fi & First & Ro & D' & Le & En & Rv)]; [split; [exact D|split; assumption]|].
    destruct (name48_ok name N0) as (N1 & N2).
    assert (Lo' : leases_ok d').
    { unfold leases_ok. rewrite Le. destruct (io_landed init); [apply (leases_set g); assumption|exact Lo]. }
    split; [exact D'|]. split; [exact Lo'|].
    intros j re' Hj Ej Ne. rewrite (En j Hj) in Ej. rewrite Le.
    destruct (Nat.eqb_spec j i) as [->|Nj].
    + destruct (io_rv init <? 0) eqn:E1; cbn [negb andb] in Ej.
      * assert (re' = re) as -> by congruence. rewrite free_nstr in Ne by exact Fi. congruence.
      * destruct (io_landed upd).
        -- assert (re' = new_entry name (slot_off g i)) as -> by congruence.
           assert (La : io_landed init = true) by (apply nomem_landed; auto; lia).
           rewrite La. cbn. rewrite Z.eqb_refl. exists (name48 name). split; [reflexivity|exact N2].
        -- assert (re' = re) as -> by congruence. rewrite free_nstr in Ne by exact Fi. congruence.
    + cbn [andb] in Ej. destruct (J j re' Hj Ej Ne) as (nm & J1 & J2). exists nm. split; [|exact J2].
      destruct (io_landed init); [|exact J1]. cbn.
      destruct (Z.eqb_spec (slot_off g j) (slot_off g i)) as [E|_]; [|exact J1].
      exfalso. apply Nj. apply (slot_off_inj g); assumption.
  - destruct A as (N0 & O1 & O2). cbn in K.
    pose proof (delete_cases g d name ro upd init G D N0) as C. rewrite H in C.
    destruct C as [(_ & ->)|[(_ & -> & _)|(i & re & Hi & Ei & Fi & First & D' & Le & En & Rv)]];
      [split; [exact D|split; assumption]|split; [exact D|split; assumption]|].
    assert (Lo' : leases_ok d').
    { unfold leases_ok. rewrite Le. destruct (negb (io_rv upd <? 0) && io_landed init); [|exact Lo].
      intros o nm. cbn. destruct (o =? slot_off g i); [discriminate|apply Lo]. }
    split; [exact D'|]. split; [exact Lo'|].
    intros j re' Hj Ej Ne. rewrite (En j Hj) in Ej. rewrite Le.
    destruct (Nat.eqb_spec j i) as [->|Nj].
    + destruct (io_landed upd) eqn:Lu; cbn [andb] in Ej.
      * assert (re' = no_entry) as -> by congruence. exfalso. apply Ne. reflexivity.
      * destruct (io_rv upd <? 0) eqn:E1; [cbn [negb andb]; exact (J i re' Hi Ej Ne)|].
        rewrite (nomem_landed upd O1 K ltac:(lia)) in Lu. discriminate Lu.
    + cbn [andb] in Ej. destruct (J j re' Hj Ej Ne) as (nm & J1 & J2). exists nm. split; [|exact J2].
      destruct (negb (io_rv upd <? 0) && io_landed init); [|exact J1]. cbn.
      destruct (Z.eqb_spec (slot_off g j) (slot_off g i)) as [E|_]; [|exact J1].
      exfalso. apply Nj. apply (slot_off_inj g); assumption.
  - destruct A as (N0 & O1 & B). destruct K as (k & Dk & Ka).
    destruct (denotes_entry g uo k G Dk) as (_ & E2 & E3). pose proof (proj1 Dk) as Hk.
    assert (Go : forall re ret, rentry_wf re ->
       (nstr (re_name re) <> [] -> exists nm, d_lease d (slot_off g k) = Some nm /\ nstr nm = nstr (re_name re)) ->
       match update_rindex g (d_area d) re (ent_of_off g uo) with
       | None => OUb
       | Some (so, sec) =>
         let d1 := if io_landed upd then set_sector d so sec else d in
         if io_rv upd <? 0 then ORet (io_rv upd) 0 d1 else ORet 0 ret d1
       end = ORet rv off d' -> jinv g d').
    { intros re ret W Wn. rewrite E2.
      destruct (update_entries g d re k G D Hk W) as (so & sec & U & U1 & U2 & U3). rewrite U. cbv zeta. intros X.
      assert (d' = if io_landed upd then set_sector d so sec else d) as -> by (destruct (io_rv upd <? 0); injection X as _ _ <-; reflexivity).
      destruct (io_landed upd); [|split; [exact D|split; assumption]].
      split; [exact U1|]. split; [unfold leases_ok; rewrite U2; exact Lo|].
      intros j re' Hj Ej Ne. rewrite U2. rewrite (U3 j Hj) in Ej.
      destruct (Nat.eqb_spec j k) as [->|Nj]; [|exact (J j re' Hj Ej Ne)].
      assert (re' = re) as -> by congruence. exact (Wn Ne). }
    unfold rindex_update in H.
    destruct (negb (uo =? 0) && negb (uo mod g_align g =? 0)); [injection H as <- <- <-; split; [exact D|split; assumption]|].
    replace (negb (uo =? 0)) with true in H by lia. rewrite !andb_true_r in H.
    destruct rem.
    { refine (Go no_entry 0 no_entry_wf _ H). intros X. exfalso. apply X. reflexivity. }
    destruct (add && negb (hd 0%N name =? 0)%N) eqn:Ea; [|injection H as <- <- <-; split; [exact D|split; assumption]].
    apply andb_true_iff in Ea. destruct Ea as [Ea _].
    refine (Go (new_entry name uo) uo _ _ H).
    + unfold rentry_wf, new_entry, u64, u32, NAME_ID_SIZE; cbn [re_res_offset re_flags re_unused re_name].
      split; [lia|]. split; [reflexivity|]. split; [reflexivity|]. exact N0.
    + intros _. exact (Ka eq_refl Ea).
  - unfold rindex_rebuild in H.
    destruct (geom_facts g G) as (M1 & _).
    destruct (rebuild_spec g (d_lease d) rd G Lo (Z.to_nat (max_of g)) 0 (blank_area g (d_area d)) ltac:(lia)
                (blank_area_length g _ G D)) as (a & R & La & B & _ & _).
    rewrite R in H.
    assert (Ga : forall j re', Z.of_nat j < max_of g -> entry_at g a j = Some re' -> nstr (re_name re') <> [] ->
       exists nm, d_lease d (slot_off g j) = Some nm /\ nstr nm = nstr (re_name re')).
    { intros j re' Hj Ej Ne. destruct (B j Hj) as [X|(_ & nm & X1 & X2)].
      - rewrite blank_area_entry in X by assumption. assert (re' = no_entry) as -> by congruence.
        exfalso. apply Ne. reflexivity.
      - exists nm. split; [exact X1|]. assert (re' = new_entry nm (slot_off g j)) as -> by congruence. reflexivity. }
    destruct (rv0 <? 0); injection H as <- <- <-; unfold jinv, disk_ok, leases_ok, index_good; cbn [d_area d_lease].
    + split; [rewrite torn_length; exact D|]. split; [exact Lo|]. intros j re' Hj Ej Ne.
      destruct (torn_entry g torn a (d_area d) j G La D Hj) as [X|X]; rewrite X in Ej;
        [exact (Ga j re' Hj Ej Ne)|exact (J j re' Hj Ej Ne)].
    + split; [exact La|]. split; [exact Lo|]. exact Ga.
Qed.

(* In every history of operations, each complete or cut short anywhere, under the
   conditions above every name in the index refers to a lease of that name. *)
Theorem C32_crash_consistent_partial :
  forall g d0 d, geom_ok g -> disk_ok g d0 -> leases_ok d0 -> index_good g d0 ->
    rhist g (disciplined g) d0 d -> disk_ok g d /\ leases_ok d /\ index_good g d.
Proof.
  intros g d0 d G D L J H. induction H as [|d1 o rv off d2 H IH K A].
  - split; [exact D|split; assumption].
  - exact (jinv_step g d1 o rv off d2 G IH K A).
Qed.

(* From any state at all, a rebuild that can read the leases recovers every lease
   in an area of the index, keeps the header sector, and the index is good. *)
Theorem C32_rebuild_recovers_partial :
  forall g d rd torn, geom_ok g -> disk_ok g d -> leases_ok d ->
    (forall i, Z.of_nat i < max_of g -> d_lease d (slot_off g i) <> None ->
       rd i = RdOk /\ forall k, (k <= i)%nat -> rd k <> RdEnd) ->
    exists d', rindex_rebuild g d rd 0 torn = ORet 0 0 d' /\ recovered g d d' /\ index_good g d' /\
      d_lease d' = d_lease d /\ get 0 (Z.to_nat (g_ss g)) (d_area d') = get 0 (Z.to_nat (g_ss g)) (d_area d) /\
      (forall name i nm, name_ok name -> nstr name <> [] -> Z.of_nat i < max_of g ->
         d_lease d (slot_off g i) = Some nm -> nstr nm = nstr name -> present g (d_area d') name).
Proof.
  intros g d rd torn G D Lo R. destruct (geom_facts g G) as (M1 & S1 & S2 & S3 & A1 & S4 & EP & S5).
  destruct (rebuild_spec g (d_lease d) rd G Lo (Z.to_nat (max_of g)) 0 (blank_area g (d_area d)) ltac:(lia)
              (blank_area_length g _ G D)) as (a & Ra & La & B & C & Hd).
  exists (mkRdisk a (d_lease d)). unfold rindex_rebuild. rewrite Ra. change (0 <? 0) with false. cbv iota.
  assert (Rec : recovered g d (mkRdisk a (d_lease d))).
  { intros i nm Hi El. destruct (R i Hi ltac:(congruence)) as (R1 & R2). cbn [d_area].
    apply C; auto; lia. }
  split; [reflexivity|]. split; [exact Rec|]. split; [|split; [reflexivity|split]].
  - intros j re' Hj Ej Ne. cbn [d_area d_lease] in *. destruct (B j Hj) as [X|(_ & nm & X1 & X2)].
    + rewrite blank_area_entry in X by assumption. assert (re' = no_entry) as -> by congruence.
      exfalso. apply Ne. reflexivity.
    + exists nm. split; [exact X1|]. assert (re' = new_entry nm (slot_off g j)) as -> by congruence. reflexivity.
  - cbn [d_area]. rewrite Hd. unfold blank_area.
    assert (Gl : length (get 0 (Z.to_nat (g_ss g)) (d_area d)) = Z.to_nat (g_ss g)).
    { apply get_length. specialize (EP 0%nat ltac:(lia)). unfold ent_offset_of in EP. unfold disk_ok in D. lia. }
    unfold get at 1. cbn [skipn]. rewrite firstn_app, Gl, Nat.sub_diag, firstn_O, app_nil_r.
    apply firstn_all2. lia.
  - intros name i nm N0 Ne Hi El En. exists i. split; [exact Hi|]. exists (new_entry nm (slot_off g i)).
    split; [apply Rec; assumption|]. cbn [re_name new_entry]. split; [exact En|exact Ne].
Qed.

(* ---- concrete cases ---- *)
Lemma blank_good : disk_ok gx blank /\ leases_ok blank /\ index_good gx blank.
Proof.
  split; [exact blank_ok|]. split; [intros o nm H; discriminate H|].
  intros i re Hi Ei Ne. rewrite blank_entry in Ei by exact Hi. assert (re = no_entry) as -> by congruence.
  exfalso. apply Ne. reflexivity.
Qed.

(* a create that crashes between its two writes, then a complete one, is a history *)
Example C32_nonvacuous :
  geom_ok gx /\ disk_ok gx blank /\ leases_ok blank /\ index_good gx blank /\
  disciplined gx blank (OpCreate nameA done done) /\
  disciplined gx blank (OpCreate nameA done (mkIout (-5) false)) /\
  exists d1, rhist gx (disciplined gx) blank d1 /\ present gx (d_area d1) nameA.
Proof.
  assert (Dn : iout_ok done) by (split; [reflexivity|cbn; lia]).
  assert (Df : iout_ok (mkIout (-5) false)) by (split; cbn; lia).
  assert (K : disciplined gx blank (OpCreate nameA done done)).
  { split; [split; [exact nameA_ok|split; assumption]|cbv; discriminate]. }
  destruct blank_good as (B1 & B2 & B3). split; [exact gx_ok|]. do 3 (split; [assumption|]). split; [exact K|].
  split. { split; [split; [exact nameA_ok|split; assumption]|cbv; discriminate]. }
  destruct C33_nonvacuous as (_ & _ & _ & Ne & _ & _ & _ & d' & E & L). exists d'. split.
  - apply (rh_step _ _ _ blank _ 0 (3 * 1048576) d' (rh_init _ _ _) K). exact E.
  - apply C33_lookup_sound in L; [|exact gx_ok|exact Ne]. destruct L as (_ & i & Hh & _). exists i. exact Hh.
Qed.

(* a rebuild which cannot read one lease reports success and forgets it; a later
   create will then initialise over that lease *)
Definition one_lease : rdisk := set_lease blank (slot_off gx 0) (Some nameA).

Lemma rebuild_err_none lease area n i : rebuild_from gx lease (fun _ => RdErr) area n i = Some area.
Proof. revert i; induction n as [|n IH]; intros i; [reflexivity|]. cbn [rebuild_from]. apply IH. Qed.

Lemma rebuild_forgets d nm :
  disk_ok gx d -> d_lease d (slot_off gx 0) = Some nm -> name_ok nm ->
  exists d', rindex_rebuild gx d (fun _ => RdErr) 0 (fun _ => true) = ORet 0 0 d' /\ ~ recovered gx d d'.
Proof.
  intros D L N0. exists (mkRdisk (blank_area gx (d_area d)) (d_lease d)). split.
  - unfold rindex_rebuild. rewrite rebuild_err_none. reflexivity.
  - intros R. specialize (R 0%nat nm ltac:(vm_compute; reflexivity) L).
    cbn [d_area] in R. rewrite blank_area_entry in R; [|exact gx_ok|exact D|vm_compute; reflexivity].
    discriminate R.
Qed.

Lemma good_set d off name : index_good gx d -> (forall i re, Z.of_nat i < max_of gx -> entry_at gx (d_area d) i = Some re -> nstr (re_name re) = []) ->
  index_good gx (set_lease d off (Some name)).
Proof. intros _ B i re Hi Ei Ne. exfalso. apply Ne. exact (B i re Hi Ei). Qed.

Lemma disk_ok_set d o v : disk_ok gx d -> disk_ok gx (set_lease d o v).
Proof. destruct d. intros H. exact H. Qed.

Lemma one_lease_facts : disk_ok gx one_lease /\ leases_ok one_lease /\ index_good gx one_lease /\
  d_lease one_lease (slot_off gx 0) = Some nameA.
Proof.
  destruct blank_good as (B1 & B2 & B3). unfold one_lease. split; [|split; [|split]].
  - exact (disk_ok_set blank _ _ B1).
  - apply (leases_set gx); [exact B2|exact nameA_ok].
  - apply good_set; [exact B3|]. intros i re Hi Ei. rewrite blank_entry in Ei by exact Hi.
    assert (re = no_entry) as -> by congruence. reflexivity.
  - unfold set_lease; cbn [d_lease]. rewrite Z.eqb_refl. reflexivity.
Qed.

Theorem C32_refuted : ~ C32_statement.
Proof.
  intros S. destruct one_lease_facts as (D & L & J & E).
  revert D L J E. generalize one_lease. intros d1 D L J E.
  destruct (S gx d1 d1 gx_ok D L J (rh_init gx any_op d1)) as (_ & R).
  destruct (rebuild_forgets d1 nameA D E nameA_ok) as (d' & H1 & H2).
  exact (H2 (R _ _ _ _ H1)).
Qed.

(* out of memory while initialising the new lease is taken for success (the
   positive return value of posix_memalign): the entry is written for a lease
   that does not exist *)
Theorem C32_nomem_bad_index :
  exists off d', rindex_create gx blank nameA (mkIout 12 false) done = ORet 0 off d' /\ ~ index_good gx d'.
Proof.
  destruct (update_entries gx blank (new_entry nameA (slot_off gx 0)) 0 gx_ok blank_ok ltac:(vm_compute; reflexivity)) as (so & sec & U & U1 & U2 & U3).
  { apply (new_entry_wf gx 0); [exact gx_ok|vm_compute; reflexivity|vm_compute; reflexivity|exact nameA_ok]. }
  exists (slot_off gx 0), (set_sector blank so sec). split.
  - unfold rindex_create.
    rewrite (search_from_first gx (d_area blank) FindFree 0 (slot_off gx 0) no_entry gx_ok);
      [|vm_compute; reflexivity|apply blank_entry; vm_compute; reflexivity|reflexivity|vm_compute; reflexivity|intros j; lia].
    cbn [io_landed io_rv]. rewrite U. reflexivity.
  - intros J.
    assert (E : entry_at gx (d_area (set_sector blank so sec)) 0 = Some (new_entry nameA (slot_off gx 0))).
    { rewrite (U3 0%nat) by (vm_compute; reflexivity). reflexivity. }
    destruct (J 0%nat _ ltac:(vm_compute; reflexivity) E ltac:(discriminate)) as (nm & Hnm & _).
    rewrite U2 in Hnm. discriminate Hnm.
Qed.

Print Assumptions C32_crash_consistent_partial.
Print Assumptions C32_rebuild_recovers_partial.
Print Assumptions C32_refuted.
Print Assumptions C32_nomem_bad_index.
