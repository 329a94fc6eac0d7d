(* C33: index create, lookup and delete agree. *)
From Coq Require Import List NArith ZArith Lia Bool Arith ZifyBool ZifyN ZifyNat.
From Verif Require Import Bytes Codec Leader Sizes Rindex RindexProof RindexOps.
Import ListNotations.
Open Scope Z_scope.
Local Opaque strncmp_eq.

(* ---- specification ---- *)
(* the C string of a 48 byte name *)
Definition str (name : bytes) : bytes := cstr 48 name.
(* entry i holds this (nonempty) name *)
Definition holds (g : geom) (area : bytes) (i : nat) (name : bytes) : Prop :=
  Z.of_nat i < max_of g /\ exists re, entry_at g area i = Some re /\ str (re_name re) = str name /\ str name <> [].
Definition present (g : geom) (area : bytes) (name : bytes) : Prop := exists i, holds g area i name.
(* no allocation failure *)
Definition no_nomem (o : iout) : Prop := io_rv o <= 0.

Definition looked_up (g : geom) (area : bytes) (name : bytes) : lres := rindex_lookup g area name 0.

(* Full claim *)
Definition C33_statement : Prop :=
  forall g d name init upd off d',
    geom_ok g -> disk_ok g d -> name_ok name -> str name <> [] -> iout_ok init -> iout_ok upd ->
    rindex_create g d name init upd = ORet 0 off d' ->
    looked_up g (d_area d') name = LRet 0 name off /\
    (forall other, name_ok other -> str other <> [] -> str other <> str name ->
       looked_up g (d_area d') other = looked_up g (d_area d) other) /\
    (forall upd2 init2 ro off2 d2, iout_ok upd2 -> iout_ok init2 ->
       rindex_delete g d' name ro upd2 init2 = ORet 0 off2 d2 ->
       looked_up g (d_area d2) name = LRet (-2) [] 0).

(* ---- proofs ---- *)
Lemma hd_str name : (hd 0%N name =? 0)%N = true <-> str name = [].
Proof.
  unfold str. destruct name as [|x name]; cbn; [tauto|]. destruct (x =? 0)%N; [tauto|]. split; discriminate.
Qed.

Lemma hits_name name re :
  hits (FindName name) re = true <-> str (re_name re) <> [] /\ str (re_name re) = str name.
Proof.
  cbn [hits]. rewrite andb_true_iff, strncmp_eq_spec. change NAME_ID_SIZE with 48%nat. fold (str (re_name re)) (str name).
  pose proof (hd_str (re_name re)) as H. destruct (hd 0%N (re_name re) =? 0)%N; cbn [negb].
  - split; [intros [X _]; discriminate X|]. intros [X _]. exfalso. apply X. apply H. reflexivity.
  - split; [intros [_ X]|intros [_ X]]; (split; [|exact X]); [|reflexivity].
    intros Y. apply H in Y. discriminate Y.
Qed.

Lemma hits_name_false name re :
  hits (FindName name) re = false <-> str (re_name re) = [] \/ str (re_name re) <> str name.
Proof.
  pose proof (hits_name name re) as H. destruct (hits (FindName name) re).
  - destruct H as [H _]. destruct (H eq_refl) as [A B]. split; [discriminate|]. intros [X|X]; congruence.
  - destruct H as [_ H]. split; [|reflexivity]. intros _.
    destruct (list_eq_dec N.eq_dec (str (re_name re)) []) as [E|E]; [auto|]. right. intros X.
    specialize (H (conj E X)). discriminate H.
Qed.

Lemma free_str re : is_free re = true -> str (re_name re) = [].
Proof. unfold is_free. rewrite andb_true_iff. intros [_ H]. apply hd_str. exact H. Qed.

Lemma lookup_name_eq g area name :
  str name <> [] ->
  looked_up g area name =
  match search_entries g area (FindName name) with
  | SUb => LUb | SNone => LRet (- ENOENT) [] 0 | SFound _ _ res => LRet 0 name res end.
Proof.
  intros H. unfold looked_up, rindex_lookup. change (0 =? 0) with true. cbn [negb andb].
  destruct (hd 0%N name =? 0)%N eqn:E; [apply hd_str in E; congruence|reflexivity].
Qed.

Lemma nomem_landed o : iout_ok o -> no_nomem o -> 0 <= io_rv o -> io_landed o = true.
Proof. intros [A _] B C. apply A. unfold no_nomem in B. lia. Qed.

(* After a successful create of a name that was not in the index the name is found
   at the offset create returned; a lookup of any other name gives what it gave
   before; and a successful delete makes the name unknown again.  Missing from the
   full claim: names already present, and out of memory in the index write. *)
Theorem C33_create_lookup_delete_partial :
  forall g d name init upd off d',
    geom_ok g -> disk_ok g d -> name_ok name -> str name <> [] -> iout_ok init -> iout_ok upd ->
    no_nomem upd -> ~ present g (d_area d) name ->
    rindex_create g d name init upd = ORet 0 off d' ->
    disk_ok g d' /\
    looked_up g (d_area d') name = LRet 0 name off /\
    (forall other, name_ok other -> str other <> [] -> str other <> str name ->
       looked_up g (d_area d') other = looked_up g (d_area d) other) /\
    (forall upd2 init2 ro off2 d2, iout_ok upd2 -> iout_ok init2 -> no_nomem upd2 ->
       rindex_delete g d' name ro upd2 init2 = ORet 0 off2 d2 ->
       looked_up g (d_area d2) name = LRet (-2) [] 0 /\ ~ present g (d_area d2) name /\
       forall other, name_ok other -> str other <> [] -> str other <> str name ->
         looked_up g (d_area d2) other = looked_up g (d_area d) other).
Proof.
  intros g d name init upd off d' G D N0 Ne O1 O2 M2 Np H.
  pose proof (create_cases g d name init upd G D N0) as C. rewrite H in C.
  destruct C as [(R & _)|(i & re & Hi & Ei & Fi & First & Ro & D' & Le & En & Rv)]; [discriminate R|].
  assert (I0 : 0 <= io_rv init) by lia. assert (U0 : 0 <= io_rv upd) by lia.
  assert (Off : off = slot_off g i) by (destruct O1, O2; lia).
  assert (La : io_landed upd = true) by (apply nomem_landed; auto).
  replace (io_rv init <? 0) with false in En by lia. rewrite La in En. cbn [negb andb] in En.
  assert (En' : forall j, Z.of_nat j < max_of g -> entry_at g (d_area d') j =
            if Nat.eqb j i then Some (new_entry name (slot_off g i)) else entry_at g (d_area d) j).
  { intros j Hj. rewrite (En j Hj), andb_true_r. reflexivity. }
  clear En.
  assert (NoHit : forall j x, Z.of_nat j < max_of g -> entry_at g (d_area d) j = Some x -> hits (FindName name) x = false).
  { intros j x Hj Ej. destruct (hits (FindName name) x) eqn:Eh; [|reflexivity]. exfalso. apply Np.
    apply hits_name in Eh. exists j. split; [exact Hj|]. exists x. tauto. }
  assert (Hnew : forall r, hits (FindName name) (new_entry name r) = true).
  { intros r. apply hits_name. cbn [re_name new_entry]. auto. }
  assert (Sn : search_entries g (d_area d') (FindName name) = SFound i (ent_offset_of g i) (slot_off g i)).
  { apply (search_from_first g (d_area d') (FindName name) i (slot_off g i) (new_entry name (slot_off g i)) G Hi).
    - rewrite (En' i Hi), Nat.eqb_refl. reflexivity.
    - apply Hnew.
    - exact Ro.
    - intros j x Hj Ej. rewrite En' in Ej by lia. replace (Nat.eqb j i) with false in Ej by lia.
      apply (NoHit j); [lia|exact Ej]. }
  assert (Others : forall other, name_ok other -> str other <> [] -> str other <> str name ->
     search_entries g (d_area d') (FindName other) = search_entries g (d_area d) (FindName other)).
  { intros other No Oe On. apply search_ext; [exact G|]. intros j x y Hj Ex Ey. rewrite (En' j Hj) in Ex.
    destruct (Nat.eqb_spec j i) as [->|Nj]; [|congruence].
    assert (x = new_entry name (slot_off g i)) as -> by congruence.
    assert (y = re) as -> by congruence.
    transitivity false; [|symmetry]; apply hits_name_false; cbn [re_name new_entry]; [right; congruence|].
    left. apply free_str. exact Fi. }
  split; [exact D'|]. split; [rewrite lookup_name_eq, Sn, Off by assumption; reflexivity|].
  split; [intros other No Oe On; rewrite !lookup_name_eq, Others by assumption; reflexivity|].
  intros upd2 init2 ro off2 d2 O3 O4 M3 Hd.
  pose proof (delete_cases g d' name ro upd2 init2 G D' N0) as C. rewrite Hd in C.
  destruct C as [(R & _)|[(R & _)|(k & rk & Hk & Ek & Hk2 & Fk & D2 & Lk & En2 & Rv2)]];
    [discriminate R|discriminate R|].
  assert (Uk : 0 <= io_rv upd2) by lia.
  assert (Lu : io_landed upd2 = true) by (apply nomem_landed; auto).
  assert (k = i) as ->.
  { destruct (Nat.eq_dec k i) as [|Nk]; [assumption|]. rewrite (En' k Hk) in Ek.
    replace (Nat.eqb k i) with false in Ek by lia. pose proof (NoHit k rk Hk Ek). congruence. }
  assert (En3 : forall j, Z.of_nat j < max_of g -> entry_at g (d_area d2) j =
            if Nat.eqb j i then Some no_entry else entry_at g (d_area d) j).
  { intros j Hj. rewrite (En2 j Hj), Lu, andb_true_r, (En' j Hj). destruct (Nat.eqb j i); reflexivity. }
  assert (None2 : forall j x, Z.of_nat j < max_of g -> entry_at g (d_area d2) j = Some x -> hits (FindName name) x = false).
  { intros j x Hj Ej. rewrite (En3 j Hj) in Ej. destruct (Nat.eqb_spec j i) as [->|Nj].
    - assert (x = no_entry) as -> by congruence. apply hits_name_false. left. reflexivity.
    - exact (NoHit j x Hj Ej). }
  split; [|split].
  - rewrite lookup_name_eq by assumption.
    destruct (search_spec g (d_area d2) (FindName name) G) as (A & B & C).
    destruct (search_entries g (d_area d2) (FindName name)) as [k' e' r'| |] eqn:Es.
    + destruct (A _ _ _ eq_refl) as (A1 & _ & _ & x & A4 & A5 & _). rewrite (None2 k' x A1 A4) in A5. discriminate A5.
    + reflexivity.
    + destruct (C eq_refl) as (k' & x & A1 & A4 & A5 & _). rewrite (None2 k' x A1 A4) in A5. discriminate A5.
  - intros (j & Hj & x & Ej & E1 & E2). pose proof (None2 j x Hj Ej) as F. apply hits_name_false in F.
    destruct F as [F|F]; congruence.
  - intros other No Oe On. rewrite !lookup_name_eq by assumption.
    replace (search_entries g (d_area d2) (FindName other)) with (search_entries g (d_area d) (FindName other)); [reflexivity|].
    apply search_ext; [exact G|]. intros j x y Hj Ex Ey. rewrite (En3 j Hj) in Ey.
    destruct (Nat.eqb_spec j i) as [->|Nj]; [|congruence].
    assert (y = no_entry) as -> by congruence. assert (x = re) as -> by congruence.
    transitivity false; [|symmetry]; apply hits_name_false; left; [apply free_str; exact Fi|reflexivity].
Qed.

(* the entry which create writes names the lease area it returns, where a lease of
   that name now is; it was free before *)
Theorem C33_created_entry :
  forall g d name init upd off d',
    geom_ok g -> disk_ok g d -> name_ok name -> iout_ok init -> iout_ok upd -> no_nomem init -> no_nomem upd ->
    rindex_create g d name init upd = ORet 0 off d' ->
    exists i re old, Z.of_nat i < max_of g /\ entry_at g (d_area d) i = Some old /\ re_res_offset old = 0%N /\ str (re_name old) = [] /\
      entry_at g (d_area d') i = Some re /\ Z.of_N (re_res_offset re) = off /\ re_name re = name /\
      off = g_off g + (2 + Z.of_nat i) * g_align g /\ d_lease d' off = Some (name48 name) /\
      (forall j, Z.of_nat j < max_of g -> j <> i -> entry_at g (d_area d') j = entry_at g (d_area d) j) /\
      (forall o, o <> off -> d_lease d' o = d_lease d o).
Proof.
  intros g d name init upd off d' G D N0 O1 O2 M1 M2 H.
  pose proof (create_cases g d name init upd G D N0) as C. rewrite H in C.
  destruct C as [(R & _)|(i & re & Hi & Ei & Fi & First & Ro & D' & Le & En & Rv)]; [discriminate R|].
  assert (I0 : 0 <= io_rv init) by lia. assert (U0 : 0 <= io_rv upd) by lia.
  assert (Off : off = slot_off g i) by (destruct O1, O2; lia).
  assert (La : io_landed upd = true) by (apply nomem_landed; auto).
  assert (Li : io_landed init = true) by (apply nomem_landed; auto).
  rewrite La in En. replace (io_rv init <? 0) with false in En by lia. cbn [negb andb] in En. rewrite Li in Le.
  exists i, (new_entry name (slot_off g i)), re. split; [exact Hi|]. split; [exact Ei|].
  pose proof (slot_off_range g i G Hi) as SR. unfold is_free in Fi. apply andb_prop in Fi. destruct Fi as [F1 F2].
  split; [lia|]. split; [apply hd_str; exact F2|].
  split; [rewrite (En i Hi), Nat.eqb_refl; reflexivity|]. split; [cbn; lia|]. split; [reflexivity|].
  split; [rewrite Off; unfold slot_off; lia|].
  split; [rewrite Le, Off; cbn [d_lease set_lease]; rewrite Z.eqb_refl; reflexivity|].
  split.
  - intros j Hj Nj. rewrite (En j Hj). replace (Nat.eqb j i) with false by lia. reflexivity.
  - intros o No. rewrite Le. cbn [d_lease set_lease]. replace (o =? slot_off g i) with false by lia. reflexivity.
Qed.

(* lookup finds only names that are there, at the offset of their area *)
Theorem C33_lookup_sound :
  forall g area name nm off,
    geom_ok g -> str name <> [] -> looked_up g area name = LRet 0 nm off ->
    nm = name /\ exists i, holds g area i name /\ off = g_off g + (2 + Z.of_nat i) * g_align g.
Proof.
  intros g area name nm off G Ne H. rewrite lookup_name_eq in H by assumption.
  destruct (search_spec g area (FindName name) G) as (A & _ & _).
  destruct (search_entries g area (FindName name)) as [i e r| |]; [|discriminate H|discriminate H].
  destruct (A _ _ _ eq_refl) as (A1 & A2 & A3 & re & A4 & A5 & A6). injection H as <- <-.
  split; [reflexivity|]. exists i. apply hits_name in A5.
  split; [split; [exact A1|]; exists re; tauto|].
  destruct (res_offset_some g i r G A1 A3) as (-> & _). unfold slot_off. ring.
Qed.

(* ---- concrete cases ---- *)
Definition gx : geom := mkGeom 512 1048576 1048576 4096.
Definition blank : rdisk := mkRdisk (repeat 0%N (Z.to_nat 1048576)) (fun _ => None).
Definition nameA : bytes := repeat 65%N 48.
Definition done : iout := mkIout 0 true.

Lemma gx_ok : geom_ok gx.
Proof. unfold geom_ok, sizes_ok, gx; cbn. lia. Qed.
Lemma nameA_ok : name_ok nameA.
Proof. split; [reflexivity|]. apply Forall_forall. intros x H. apply repeat_spec in H. subst. reflexivity. Qed.
Lemma blank_ok : disk_ok gx blank.
Proof. apply repeat_length. Qed.

Lemma get_zeros o n m : (o + n <= m)%nat -> get o n (repeat 0%N m) = repeat 0%N n.
Proof.
  intros H. apply nth_error_ext. intros i. rewrite nth_error_get.
  destruct (Nat.ltb_spec i n).
  - rewrite !nth_error_repeat by lia. reflexivity.
  - symmetry. apply nth_error_None. rewrite repeat_length. lia.
Qed.

Lemma blank_entry i : Z.of_nat i < max_of gx -> entry_at gx (d_area blank) i = Some no_entry.
Proof.
  intros Hi. rewrite entry_at_eq by (auto using gx_ok). unfold blank; cbn [d_area].
  rewrite get_zeros; [reflexivity|].
  destruct (geom_facts gx gx_ok) as (_ & _ & _ & _ & _ & _ & EP & _). specialize (EP i Hi).
  unfold entry_pos. change (g_align gx) with 1048576 in EP. unfold ent_offset_of in *. change (g_ss gx) with 512 in *. lia.
Qed.

Lemma blank_create : exists d', rindex_create gx blank nameA done done = ORet 0 (3 * 1048576) d'.
Proof.
  pose proof (create_cases gx blank nameA done done gx_ok blank_ok nameA_ok) as C.
  destruct (rindex_create gx blank nameA done done) as [|rv off d'] eqn:E.
  - exfalso. unfold rindex_create in E.
    rewrite (search_from_first gx (d_area blank) FindFree 0 (slot_off gx 0) no_entry gx_ok) in E;
      [|vm_compute; reflexivity|apply blank_entry; vm_compute; reflexivity|reflexivity|vm_compute; reflexivity|intros j; lia].
    destruct (update_entries gx blank (new_entry nameA (slot_off gx 0)) 0 gx_ok blank_ok ltac:(vm_compute; reflexivity)) as (so & sec & U & _).
    { apply (new_entry_wf gx 0); [exact gx_ok|vm_compute; reflexivity|vm_compute; reflexivity|exact nameA_ok]. }
    rewrite U in E. discriminate E.
  - destruct C as [(_ & _ & F)|(i & re & Hi & Ei & Fi & First & Ro & D' & Le & En & Rv)].
    { specialize (F 0%nat no_entry ltac:(vm_compute; reflexivity) ltac:(apply blank_entry; vm_compute; reflexivity)). discriminate F. }
    destruct i as [|i].
    + exists d'. cbn [done io_rv] in Rv. destruct Rv as [[X _]|[(_ & X & _)|(_ & _ & -> & ->)]]; [lia|lia|].
      reflexivity.
    + specialize (First 0%nat no_entry ltac:(lia) ltac:(apply blank_entry; vm_compute; reflexivity)). discriminate First.
Qed.

Example C33_nonvacuous :
  geom_ok gx /\ disk_ok gx blank /\ name_ok nameA /\ str nameA <> [] /\ iout_ok done /\ no_nomem done /\
  ~ present gx (d_area blank) nameA /\
  exists d', rindex_create gx blank nameA done done = ORet 0 (3 * 1048576) d' /\
    looked_up gx (d_area d') nameA = LRet 0 nameA (3 * 1048576).
Proof.
  assert (NP : ~ present gx (d_area blank) nameA).
  { intros (i & Hi & re & E & E1 & E2). rewrite blank_entry in E by exact Hi. injection E as <-.
    cbn in E1. congruence. }
  assert (Dn : iout_ok done) by (split; [reflexivity|cbn; lia]).
  assert (Nn : no_nomem done) by (cbv; discriminate).
  split; [exact gx_ok|]. split; [exact blank_ok|]. split; [exact nameA_ok|]. split; [discriminate|].
  split; [exact Dn|]. split; [exact Nn|]. split; [exact NP|].
  destruct blank_create as (d' & E). exists d'. split; [exact E|].
  destruct (C33_create_lookup_delete_partial gx blank nameA done done _ d' gx_ok blank_ok nameA_ok ltac:(discriminate) Dn Dn Nn NP E) as (_ & L & _).
  exact L.
Qed.

(* the same name created twice: the second create returns the second area, the
   lookup still gives the first *)
Theorem C33_refuted : ~ C33_statement.
Proof.
  intros S. destruct blank_create as (d1 & E1).
  assert (Dn : iout_ok done) by (split; [reflexivity|cbn; lia]).
  destruct C33_nonvacuous as (_ & _ & _ & Ne & _ & Nn & NP & _).
  destruct (C33_create_lookup_delete_partial gx blank nameA done done _ d1 gx_ok blank_ok nameA_ok Ne Dn Dn Nn NP E1) as (D1 & L1 & _).
  pose proof (create_cases gx d1 nameA done done gx_ok D1 nameA_ok) as C2.
  pose proof (create_cases gx blank nameA done done gx_ok blank_ok nameA_ok) as C1. rewrite E1 in C1.
  destruct C1 as [(X & _)|(i & re & Hi & Ei & Fi & First & Ro & _ & _ & En & Rv)]; [discriminate X|].
  assert (Off : 3 * 1048576 = slot_off gx i) by (cbn [done io_rv] in Rv; lia).
  assert (i = 0%nat) as -> by (apply (slot_off_inj gx); [exact gx_ok|rewrite <- Off; reflexivity]).
  assert (F1 : entry_at gx (d_area d1) 1 = Some no_entry).
  { rewrite En by (vm_compute; reflexivity). cbn [Nat.eqb andb]. apply blank_entry. vm_compute; reflexivity. }
  destruct (rindex_create gx d1 nameA done done) as [|rv off2 d2] eqn:E2.
  - unfold rindex_create in E2.
    assert (F0 : entry_at gx (d_area d1) 0 = Some (new_entry nameA (slot_off gx 0))).
    { rewrite En by (vm_compute; reflexivity). reflexivity. }
    rewrite (search_from_first gx (d_area d1) FindFree 1 (slot_off gx 1) no_entry gx_ok) in E2;
      [|vm_compute; reflexivity|exact F1|reflexivity|vm_compute; reflexivity|].
    2:{ intros j re' Hj Ej. assert (j = 0%nat) as -> by lia. rewrite F0 in Ej. injection Ej as <-. reflexivity. }
    destruct (update_entries gx d1 (new_entry nameA (slot_off gx 1)) 1 gx_ok D1 ltac:(vm_compute; reflexivity)) as (so & sec & U & _).
    { apply (new_entry_wf gx 1); [exact gx_ok|vm_compute; reflexivity|vm_compute; reflexivity|exact nameA_ok]. }
    rewrite U in E2. discriminate E2.
  - destruct C2 as [(_ & _ & F)|(k & rk & Hk & Ek & Fk & _ & _ & _ & _ & En2 & Rv2)].
    { specialize (F 1%nat no_entry ltac:(vm_compute; reflexivity) F1). discriminate F. }
    assert (rv = 0 /\ off2 = slot_off gx k) as [-> ->] by (cbn [done io_rv] in Rv2; lia).
    assert (Kz : k <> 0%nat).
    { intros ->. rewrite En in Ek by (vm_compute; reflexivity). change (Nat.eqb 0 0) with true in Ek. cbn [andb done io_rv io_landed negb Z.ltb Z.compare] in Ek. injection Ek as <-. discriminate Fk. }
    destruct (S gx d1 nameA done done _ d2 gx_ok D1 nameA_ok Ne Dn Dn E2) as (L2 & _).
    apply C33_lookup_sound in L2; [|exact gx_ok|exact Ne]. destruct L2 as (_ & m & (Hm & rm & Em & Sm & _) & Om).
    (* the first entry still holds the name, so the lookup cannot give slot k *)
    assert (L3 : looked_up gx (d_area d2) nameA = LRet 0 nameA (slot_off gx 0)).
    { rewrite lookup_name_eq by exact Ne.
      rewrite (search_from_first gx (d_area d2) (FindName nameA) 0 (slot_off gx 0) (new_entry nameA (slot_off gx 0)) gx_ok);
        [reflexivity|vm_compute; reflexivity| |apply hits_name; cbn [re_name new_entry]; auto|vm_compute; reflexivity|intros j; lia].
      rewrite En2 by (vm_compute; reflexivity). replace (Nat.eqb 0 k) with false by lia. cbn [andb].
      rewrite En by (vm_compute; reflexivity). reflexivity. }
    destruct (S gx d1 nameA done done _ d2 gx_ok D1 nameA_ok Ne Dn Dn E2) as (L4 & _).
    rewrite L3 in L4. injection L4 as L4. apply Kz. apply (slot_off_inj gx); [exact gx_ok|congruence].
Qed.

Print Assumptions C33_create_lookup_delete_partial.
Print Assumptions C33_lookup_sound.
Print Assumptions C33_refuted.
Print Assumptions C33_created_entry.
