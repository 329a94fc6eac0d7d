(* The invariant of LeaseProof.v: commit, conversion and release steps; the
   invariant holds in every state reached under the discipline. *)
From Coq Require Import List NArith ZArith Lia Bool ZifyBool ZifyN ZifyNat Arith.
From Verif Require Import Majority Mbal Ballot BallotProof LeaseSys LeaseProof LeaseProof2.
Import ListNotations.
Open Scope N_scope.

(* write_new_leader reached the disk *)
Lemma binv_rec c s h wts m cur x w p : BInv c s -> b_pc s h = Com m cur -> s_loc (b_a s) h = Dec x w ->
  L s <= d_lver x ->
  let nl := new_ldr s h wts m cur x in
  (verof p = Some (l_lver cur + 1) \/ verof p = None) ->
  shares p = mshare m ->
  (forall s', b_a s' = mkS (s_disk (b_a s)) (upd (s_loc (b_a s)) h Idle) (s_last (b_a s)) (s_gen (b_a s))
                  (s_props (b_a s)) (mkR h (d_lver x) (d_mbal x) (blk_val x) w :: s_recs (b_a s))
                  (s_starts (b_a s)) (s_saved (b_a s)) (s_floor (b_a s)) ->
     b_ldr s' = nl -> b_gen s' = b_gen s -> recd s' (d_lver x) (d_inp x) (d_inp2 x) -> d_inp3 x <> 0 ->
     PI c s' h p) ->
  (forall y v s', SX s h y v -> b_pc s' h = p -> b_shb s' = b_shb s -> SX s' h y v) ->
  forall a, step c (b_a s) (ARec h) = Some a ->
  BInv c (mkB a nl (upd (b_pc s) h p) (b_gen s) (b_shb s)).
Proof.
  intros B EP EL HL nl HV HS HP HX a E1.
  pose proof (g_pc c s B h) as P. rewrite EP in P. cbn [PI] in P.
  destruct P as (P1 & P2 & (x0 & w0 & Q1 & Q2 & Q3) & P4). rewrite EL in Q1. injection Q1 as <- <-.
  pose proof P1 as (A1 & A2 & A3 & A4 & A5 & A6 & A7).
  destruct (step_inv2 c (b_a s) (ARec h) a (g_inv c s B) (g_v c s B) Logic.I E1) as (I1 & I2).
  cbn [step] in E1. rewrite EL in E1. injection E1 as <-.
  set (s' := mkB _ _ _ _ _).
  assert (PCH : b_pc s' h = p) by (cbn; apply upd_eq).
  assert (PCY : forall y, y <> h -> b_pc s' y = b_pc s y) by (intros; cbn; apply upd_neq; auto).
  assert (RC : recd s' (d_lver x) (d_inp x) (d_inp2 x)).
  { exists (mkR h (d_lver x) (d_mbal x) (blk_val x) w). cbn. auto. }
  assert (TS : d_inp3 x <> 0).
  { destruct (v_recs _ I2 (mkR h (d_lver x) (d_mbal x) (blk_val x) w)) as (_ & T); [left; reflexivity|]. exact T. }
  assert (HO : b_pc s h <> Out) by congruence.
  assert (F : Frame s s' h).
  { constructor; cbn [b_a b_ldr b_gen b_shb s_floor s_recs s' nl new_ldr l_lver l_writer].
    - exact HL.
    - split; [pose proof (g_floor c s B); lia|]. intros y cr _. apply (floor_cur c s B).
    - lia.
    - intros y Hy. rewrite PCY by auto. auto.
    - intros y Hy. cbn. rewrite upd_neq by auto. auto.
    - intros y Hy. left. reflexivity.
    - intros r Hr. right. exact Hr.
    - intros r [<-|Hr]; [right; cbn; lia|auto].
    - right. reflexivity.
    - left. split; [reflexivity|]. rewrite PCH, EP. cbn [verof]. destruct HV as [HV|HV]; auto. }
  apply (assemble c s s' h B F). constructor.
  - exact I1.
  - exact I2.
  - cbn. rewrite <- Q3. lia.
  - cbn. pose proof (g_saved c s B h). lia.
  - auto.
  - intros V V1 V2 V3. cbn in V3. assert (V = l_lver cur) by lia. subst V.
    eapply closed_mono; eauto.
  - apply (g_disk c s B).
  - intros X. change (blk s' h) with (blk s h) in X. congruence.
  - right. unfold ldrok, freeok. cbn [b_ldr s' nl new_ldr l_lver l_owner l_gen l_ts]. split; [right; exact RC|].
    split; intros X; contradiction.
  - intros _. apply (g_host c s B h HO).
  - rewrite PCH. apply HP; auto.
  - rewrite PCH, HS. intros v E. assert (E' : shares (b_pc s h) = Some v) by (rewrite EP; exact E).
    split; [|auto]. apply (g_s1 c s B h v E').
  - intros y v E _.
    assert (E' : shares (b_pc s y) = Some v).
    { destruct (N.eq_dec y h) as [->|Hy]; [rewrite PCH in E; rewrite EP; cbn; congruence|rewrite PCY in E by auto; auto]. }
    apply HX; auto. apply (g_sx c s B); auto.
Qed.

Lemma binv_commit c s h wts s' : BInv c s -> bdisc s (BCommit h wts) ->
  bstep c s (BCommit h wts) = Some s' -> BInv c s'.
Proof.
  intros B D H. cbn [bstep] in H. cbn [bdisc] in D. pose proof (g_pc c s B h) as P.
  destruct (b_pc s h) as [| |m|m cur mx|m cur mbal copy a|m cur mbal a|m cur|m a lead|m lead todo live er
    |lead|k lead|k l|v'| |lead] eqn:EP; try discriminate. cbn [PI] in P.
  destruct (s_loc (b_a s) h) as [| | |x w] eqn:EL; try discriminate.
  destruct (D _ _ _ _ eq_refl eq_refl) as (D1 & D2).
  destruct P as (P1 & P2 & (x0 & w0 & Q1 & Q2 & Q3) & P4). injection Q1 as <- <-.
  pose proof P1 as (A1 & A2 & A3 & A4 & A5 & A6 & A7).
  destruct (step c (b_a s) (ARec h)) as [a|] eqn:E1; [|discriminate]. cbn [with_a] in H. injection H as <-.
  apply (binv_rec c s h wts m cur x w); auto.
  - destruct (d_inp x =? h); [left; cbn; congruence|]. right. destruct m; reflexivity.
  - destruct (d_inp x =? h); [reflexivity|]. destruct m; reflexivity.
  - intros s' EA EB EG RC TS. destruct (N.eqb_spec (d_inp x) h) as [EI|EI].
    + cbn [PI]. specialize (D2 EI). sps.
      * rewrite EA. cbn. apply upd_eq.
      * unfold leadok. rewrite EB, EG. cbn [new_ldr l_owner l_gen l_ts l_lver l_writer]. rewrite EI, D2 in RC. sps; try lia.
        rewrite EA. cbn. rewrite <- Q3. lia.
      * unfold blk. rewrite EA. exact P4.
      * cbn. intros v E. specialize (A7 v E). lia.
    + destruct m; cbn [lost PI]; rewrite EA; cbn; apply upd_eq.
  - intros y v s' X E2 E3. unfold SX in *. rewrite E2. rewrite EP in X.
    destruct (d_inp x =? h).
    + rewrite E3. cbn. intros LT. apply X. lia.
    + destruct m; exact Logic.I.
Qed.

Lemma binv_comerr c s h wts landed s' : BInv c s -> bdisc s (BComErr h wts landed) ->
  bstep c s (BComErr h wts landed) = Some s' -> BInv c s'.
Proof.
  intros B D H. cbn [bstep] in H. cbn [bdisc] in D.
  destruct (b_pc s h) as [| |m|m cur mx|m cur mbal copy a|m cur mbal a|m cur|m a lead|m lead todo live er
    |lead|k lead|k l|v'| |lead] eqn:EP; try discriminate.
  destruct (s_loc (b_a s) h) as [| | |x w] eqn:EL; try discriminate.
  specialize (D _ _ _ _ eq_refl eq_refl).
  destruct landed.
  - destruct (step c (b_a s) (ARec h)) as [a|] eqn:E1; [|discriminate]. cbn [with_a] in H. injection H as <-.
    apply (binv_rec c s h wts m cur x w); auto.
    + right. destruct m; reflexivity.
    + destruct m; reflexivity.
    + intros s' EA _ _ _ _. destruct m; cbn [retracted PI]; rewrite EA; cbn; apply upd_eq.
    + intros y v s' X E2 _. unfold SX. rewrite E2. destruct m; exact Logic.I.
  - cbn [step with_a] in H. injection H as <-.
    apply binv_abort; auto; rewrite ?EP; try congruence; destruct m; cbn; auto; intros; discriminate.
Qed.

(* ---- writes of r->dblock -------------------------------------------------------- *)
Lemma busy_of_nobody c s V : BInv c s -> nobody_at s V -> busy_above (b_a s) V.
Proof.
  intros B (N1 & N2) q. pose proof (g_pc c s B q) as P. pose proof (N2 q) as N3.
  destruct (b_pc s q) as [| |m|m cur mx|m cur mbal copy a|m cur mbal a|m cur|m a lead|m lead todo live er
    |lead|[ |v|v|v] lead|k l|v'| |lead]; cbn [PI curof] in *;
    try (rewrite P; exact Logic.I); try (destruct P as (P & _); rewrite P; exact Logic.I).
  - destruct P as (_ & _ & _ & (p & x & w & sn & Q1 & Q2 & _) & _). rewrite Q1.
    specialize (N3 _ eq_refl). lia.
  - destruct P as (_ & _ & (x & w & Q1 & Q2 & _) & _). rewrite Q1. specialize (N3 _ eq_refl). lia.
Qed.

Lemma same_blk_refl x : same_blk x x = true.
Proof. unfold same_blk. now rewrite !N.eqb_refl. Qed.

Lemma same_blk_mbal x y : same_blk x y = true -> d_mbal x = d_mbal y /\ d_lver x = d_lver y.
Proof. unfold same_blk. intros. lia. Qed.

(* what write_host_block does, in the state s1 = s with another r->dblock *)
Lemma relw_effect c s h rel sh a1 : BInv c s -> may_rewrite s h -> s_loc (b_a s) h = Idle ->
  step c (b_a s) (ARelw h 0 rel sh) = Some a1 ->
  forall p shb, b_pc s h <> Out -> (forall y, y <> h -> shb y = b_shb s y) ->
  let s' := mkB a1 (b_ldr s) (upd (b_pc s) h p) (b_gen s) shb in
  Quiet c s s' h /\ s_loc a1 h = Idle /\ s_saved a1 = s_saved (b_a s) /\ s_last a1 = s_last (b_a s) /\
  blk s' h = with_flags (s_saved (b_a s) h) rel sh /\
  (d_mbal (blk s' h) = d_mbal (s_last (b_a s) h) \/ lastl s h <= s_floor (b_a s')) /\
  lastl s h <= L s.
Proof.
  intros B M HL H p shb HO SH s'.
  assert (DI : disciplined (b_a s) (ARelw h 0 rel sh)).
  { destruct M as [M|M]; [left; auto|right; eapply busy_of_nobody; eauto]. }
  destruct (step_inv2 _ _ _ _ (g_inv c s B) (g_v c s B) DI H) as (I1 & I2).
  cbn [step] in H. rewrite HL in H. cbn [idle] in H. injection H as H.
  assert (LL : lastl s h <= L s).
  { destruct M as [M|(M & _)]; [|exact M]. apply same_blk_mbal in M. destruct M as [_ M].
    pose proof (g_saved c s B h). lia. }
  set (x := with_flags (s_saved (b_a s) h) rel sh) in *.
  assert (EB : blk s' h = x).
  { unfold blk. cbn. rewrite <- H. destruct (same_blk _ _); cbn; apply ud_eq. }
  assert (EY : forall y, y <> h -> blk s' y = blk s y).
  { intros y Hy. unfold blk. cbn. rewrite <- H.
    destruct (ud_cases (s_disk (b_a s)) 0 h x 0 y) as [(_ & X & _)|(_ & X)]; [congruence|].
    destruct (same_blk _ _); cbn; exact X. }
  assert (FS : s_loc a1 = s_loc (b_a s) /\ s_saved a1 = s_saved (b_a s) /\ s_last a1 = s_last (b_a s) /\
               s_recs a1 = s_recs (b_a s) /\ s_starts a1 = s_starts (b_a s)).
  { rewrite <- H. destruct (same_blk _ _); cbn; auto. }
  destruct FS as (F1 & F2 & F3 & F4 & F5).
  split; [|split; [|split; [|split; [|split; [|split]]]]]; auto.
  - constructor; cbn; auto.
    + rewrite F3. auto.
    + rewrite F2. apply (g_saved c s B).
    + destruct (same_blk (s_saved (b_a s) h) (s_last (b_a s) h)) eqn:SB; rewrite <- H; cbn; [auto|].
      right. exists (lastl s h). split; auto. destruct M as [M|M]; [congruence|exact M].
    + intros y Hy. rewrite F1, F2. auto.
    + intros y Hy. rewrite upd_neq by auto. auto.
  - congruence.
  - rewrite EB. destruct (same_blk (s_saved (b_a s) h) (s_last (b_a s) h)) eqn:SB.
    + left. apply same_blk_mbal in SB. apply SB.
    + right. cbn. rewrite <- H. cbn. lia.
Qed.

(* a rewrite that moves to a place where nothing but idleness is known and that
   does not share *)
Lemma relw_idle c s h sh a1 p : BInv c s -> may_rewrite s h -> s_loc (b_a s) h = Idle -> b_pc s h <> Out ->
  step c (b_a s) (ARelw h 0 true sh) = Some a1 ->
  (match p with Ready | Rel RFree _ => True | _ => False end) ->
  BInv c (set_a_pc s a1 h p).
Proof.
  intros B M HL HO H HP.
  destruct (relw_effect c s h true sh a1 B M HL H p (b_shb s) HO (fun _ _ => eq_refl))
    as (Q & X1 & X2 & X3 & X4 & X5 & X6).
  unfold set_a_pc. set (s' := mkB _ _ _ _ _) in *.
  assert (PCH : b_pc s' h = p) by (cbn; apply upd_eq).
  apply (quiet_step c s s' h B Q); rewrite ?PCH; auto.
  - right. left. destruct p as [| | | | | | | | | |[ |v|v|v] lead| | | |]; try contradiction; reflexivity.
  - intros _. destruct p as [| | | | | | | | | |[ |v|v|v] lead| | | |]; try contradiction; exact X1.
  - destruct p as [| | | | | | | | | |[ |v|v|v] lead| | | |]; try contradiction; discriminate.
  - intros y v _ _ _ _ _ _ _. unfold SX. rewrite PCH.
    destruct p as [| | | | | | | | | |[ |v0|v0|v0] lead| | | |]; try contradiction; exact Logic.I.
Qed.

(* the exclusive lease becomes a shared one *)
Lemma relw_share c s h a1 k lead : BInv c s -> s_saved (b_a s) h = s_last (b_a s) h ->
  s_loc (b_a s) h = Idle -> leadok s h lead -> verof (b_pc s h) = Some (l_lver lead) ->
  step c (b_a s) (ARelw h 0 true (b_gen s h)) = Some a1 ->
  k = RShare (l_lver lead) \/ k = RDown (l_lver lead) ->
  BInv c (set_a_pc s a1 h (Rel k (Some lead))).
Proof.
  intros B ES HL LO HV H HK.
  assert (HO : b_pc s h <> Out) by (intros E; rewrite E in HV; discriminate).
  assert (M : may_rewrite s h) by (left; rewrite ES; apply same_blk_refl).
  destruct (relw_effect c s h true (b_gen s h) a1 B M HL H (Rel k (Some lead)) (b_shb s) HO (fun _ _ => eq_refl))
    as (Q & X1 & X2 & X3 & X4 & X5 & X6).
  unfold set_a_pc. set (s' := mkB _ _ _ _ _) in *.
  assert (PCH : b_pc s' h = Rel k (Some lead)) by (cbn; apply upd_eq).
  pose proof LO as (A1 & A2 & A3 & A4 & A5 & A6 & A7 & A8).
  assert (R' : recd s' (l_lver lead) h (b_gen s h)).
  { destruct A3 as (r & R1 & R2). exists r. rewrite (q_recs _ _ _ _ Q). auto. }
  assert (NC : ~ closed s (l_lver lead)) by (eapply not_closed; eauto; apply B).
  apply (quiet_step c s s' h B Q); rewrite ?PCH; auto.
  - assert (LO' : leadok s' h lead).
    { unfold leadok. rewrite (q_ldr _ _ _ _ Q), (q_gen _ _ _ _ Q), (q_last _ _ _ _ Q). sps. }
    intros _. destruct HK as [-> | ->]; cbn [PI]; sps; try (cbn; rewrite X2, X3; exact ES); exists lead; auto.
  - intros v E. assert (EV : v = l_lver lead) by (destruct HK as [-> | ->]; cbn in E; congruence). subst v.
    rewrite X4. split; [reflexivity|]. right. sps.
    + exists h, (b_gen s h). split; auto. intros (_ & X). rewrite PCH in X. discriminate.
    + intros y w. unfold SX. rewrite PCH. exact Logic.I.
  - intros y v _ _ _ _ _ _ _. unfold SX. rewrite PCH. exact Logic.I.
Qed.

(* conversion to exclusive done *)
Lemma relw_hold c s h a1 lead : BInv c s -> s_saved (b_a s) h = s_last (b_a s) h ->
  s_loc (b_a s) h = Idle -> leadok s h lead -> verof (b_pc s h) = Some (l_lver lead) ->
  step c (b_a s) (ARelw h 0 false 0) = Some a1 ->
  (forall y v, y <> h -> shares (b_pc s y) = Some v -> v < l_lver lead -> False) ->
  BInv c (set_a_pc s a1 h (Hold lead)).
Proof.
  intros B ES HL LO HV H HK.
  assert (HO : b_pc s h <> Out) by (intros E; rewrite E in HV; discriminate).
  assert (M : may_rewrite s h) by (left; rewrite ES; apply same_blk_refl).
  destruct (relw_effect c s h false 0 a1 B M HL H (Hold lead) (b_shb s) HO (fun _ _ => eq_refl))
    as (Q & X1 & X2 & X3 & X4 & X5 & X6).
  unfold set_a_pc. set (s' := mkB _ _ _ _ _) in *.
  assert (PCH : b_pc s' h = Hold lead) by (cbn; apply upd_eq).
  pose proof LO as (A1 & A2 & A3 & A4 & A5 & A6 & A7 & A8).
  assert (R' : recd s' (l_lver lead) h (b_gen s h)).
  { destruct A3 as (r & R1 & R2). exists r. rewrite (q_recs _ _ _ _ Q). auto. }
  apply (quiet_step c s s' h B Q); rewrite ?PCH; auto.
  - assert (LO' : leadok s' h lead).
    { unfold leadok. rewrite (q_ldr _ _ _ _ Q), (q_gen _ _ _ _ Q), (q_last _ _ _ _ Q). sps. }
    intros _. cbn [PI]. rewrite X4. sps; cbn; rewrite X2, X3; auto.
  - discriminate.
  - intros y v E1 E2 _ _ _ _ _. unfold SX. rewrite PCH. intros LT.
    destruct (N.eq_dec y h) as [->|Hy]; [rewrite PCH in E2; discriminate|]. eauto.
Qed.

(* ASave: only r->dblock changes *)
Lemma binv_save c s h m lead : BInv c s -> b_pc s h = Own m ADone lead ->
  BInv c (mkB (set_saved (b_a s) h (s_last (b_a s) h)) (b_ldr s) (b_pc s) (b_gen s) (b_shb s)).
Proof.
  intros B EP. pose proof (g_pc c s B h) as P. rewrite EP in P. cbn [PI] in P.
  destruct P as (P1 & P2 & _ & P4 & P5).
  destruct (step_inv2 c (b_a s) (ASave h) (set_saved (b_a s) h (s_last (b_a s) h))) as (I1 & I2);
    [apply B|apply B|exact Logic.I|reflexivity|].
  set (s' := mkB _ _ _ _ _).
  apply (quiet_step c s s' h B).
  - constructor; cbn; auto.
    + rewrite upd_eq. destruct P2 as (_ & _ & _ & _ & A5 & _ & _ & A8). lia.
    + intros y Hy. rewrite upd_neq by auto. auto.
  - auto.
  - apply (g_disk c s B).
  - apply (g_rel c s B).
  - left. congruence.
  - intros _. change (b_pc s' h) with (b_pc s h). rewrite EP. cbn [PI]. sps.
  - intros v E. split; [|auto]. apply (g_s1 c s B h v). exact E.
  - intros y v E1 E2 X S Y1 Y2 Y3. exact X.
Qed.

Lemma memb_in y l : In y l -> memb y l = true.
Proof. intros H. unfold memb. apply existsb_exists. exists y. split; auto. apply N.eqb_refl. Qed.

Lemma binv_own c s h s' : BInv c s -> bstep c s (BOwn h) = Some s' -> BInv c s'.
Proof.
  intros B H. cbn [bstep] in H. pose proof (g_pc c s B h) as P.
  destruct (b_pc s h) as [| |m|m cur mx|m cur mbal copy a|m cur mbal a|m cur|m a lead|m lead todo live er
    |lead|k lead|k l|v'| |lead] eqn:EP; try discriminate. cbn [PI] in P.
  destruct P as (P1 & P2 & -> & P4 & P5).
  pose proof (binv_save c s h m lead B EP) as B0.
  cbn [step with_a] in H. set (a1 := set_saved (b_a s) h (s_last (b_a s) h)) in *.
  set (s0 := mkB a1 (b_ldr s) (b_pc s) (b_gen s) (b_shb s)) in *.
  assert (ES : s_saved (b_a s0) h = s_last (b_a s0) h) by (cbn; apply upd_eq).
  assert (EP0 : b_pc s0 h = Own m ADone lead) by exact EP.
  assert (EV : verof (b_pc s0 h) = Some (l_lver lead)) by (rewrite EP0; reflexivity).
  assert (HL0 : s_loc (b_a s0) h = Idle) by exact P1.
  assert (HO : b_pc s0 h <> Out) by congruence.
  assert (CK : forall l, b_shb s h = l -> m <> MSh ->
     BInv c (set_pc s0 h (Chk m lead (filter (fun q => memb q l) (hosts c)) false None))).
  { intros l El _. apply move; auto.
    - intros _. cbn [PI]. sps. discriminate.
    - rewrite EP0. auto.
    - intros y v E1 E2 X Y1 Y2 Y3. unfold SX in *. rewrite set_pc_h. rewrite EP0 in X.
      intros LT Hy. split; [|discriminate]. right. apply filter_In. split; [apply in_hosts; auto|].
      apply memb_in. rewrite <- El. apply X. exact LT. }
  assert (OWN : forall y v, y <> h -> shares (b_pc s0 y) = Some v -> v < l_lver lead -> In y (b_shb s h)).
  { intros y v Hy E LT. pose proof (g_sx c s0 B0 h y v E) as X. unfold SX in X. rewrite EP0 in X. auto. }
  destruct m as [| |v0].
  - destruct (b_shb s h) as [|z l] eqn:EL.
    + injection H as <-. apply (move c s0 h); auto.
      * intros _. cbn [PI]. sps.
      * discriminate.
      * intros y v E1 E2 X Y1 Y2 Y3. unfold SX. rewrite set_pc_h. intros LT.
        destruct (N.eq_dec y h) as [->|Hy]; [specialize (E2 eq_refl); discriminate|].
        apply (OWN y v Hy E1 LT).
    + injection H as <-. apply (CK (z :: l)); [reflexivity|discriminate].
  - match type of H with with_a ?o _ = _ => destruct o as [a2|] eqn:EA; [|discriminate] end.
    cbn [with_a] in H. injection H as <-.
    apply (relw_share c s0 h a2 (RShare (l_lver lead)) lead); auto.
  - assert (SH : shares (b_pc s0 h) = Some v0) by (rewrite EP0; reflexivity).
    assert (HH : In h (b_shb s h)).
    { pose proof (g_sx c s0 B0 h h v0 SH) as X. unfold SX in X. rewrite EP0 in X. apply X. apply P5. reflexivity. }
    destruct (b_shb s h) as [|z [|z' l]] eqn:EL.
    + destruct HH.
    + match type of H with with_a ?o _ = _ => destruct o as [a2|] eqn:EA; [|discriminate] end.
      cbn [with_a] in H. injection H as <-.
      apply (relw_hold c s0 h a2 lead); auto. intros y v Hy E LT.
      destruct (OWN y v Hy E LT) as [<-|[]]. destruct HH as [HH|[]]. congruence.
    + injection H as <-. apply (CK (z :: z' :: l)); [reflexivity|discriminate].
Qed.

(* ---- clear_dead_shared -------------------------------------------------------------- *)
Lemma chk_noshare c s h m lead todo live q v : BInv c s -> b_pc s h = Chk m lead todo live (Some q) ->
  shares (b_pc s q) = Some v -> False.
Proof.
  intros B EP E. pose proof (g_pc c s B h) as P. rewrite EP in P. cbn [PI] in P.
  destruct P as (P1 & (A1 & A2 & A3 & A4 & A5 & A6 & A7 & A8) & P3 & P4 & P5 & P6).
  assert (NC : ~ closed s (l_lver lead)) by (eapply not_closed; [apply B|exact A3|now rewrite EP]).
  destruct (g_s1 c s B q v E) as (_ & V1 & V2 & V3).
  destruct (N.lt_trichotomy (l_lver lead) v) as [X|[X|X]].
  - apply NC. apply (g_closed c s B); lia.
  - apply NC. now rewrite X.
  - pose proof (g_sx c s B h q v E) as Y. unfold SX in Y. rewrite EP in Y.
    destruct (Y X) as (_ & Y'); [congruence|]. congruence.
Qed.

Lemma binv_zero c s h m lead todo live q : BInv c s -> b_pc s h = Chk m lead todo live (Some q) ->
  nobody_at s (lastl s q) ->
  BInv c (set_a_pc s (raise_floor (set_disk (b_a s) 0 q zero_blk) q) h (Chk m lead todo live None)).
Proof.
  intros B EP N. pose proof (g_pc c s B h) as P. rewrite EP in P. cbn [PI] in P.
  destruct P as (P1 & P2 & P3 & P4 & P5 & P6).
  pose proof (busy_of_nobody c s _ B N) as BA.
  destruct (step_inv2 c (b_a s) (AZero q 0) (raise_floor (set_disk (b_a s) 0 q zero_blk) q)) as (I1 & I2);
    [apply B|apply B|exact BA|reflexivity|].
  set (s' := set_a_pc _ _ _ _).
  assert (Hq : h <> q) by congruence.
  assert (PCH : b_pc s' h = Chk m lead todo live None) by (cbn; apply upd_eq).
  assert (PCY : forall y, y <> h -> b_pc s' y = b_pc s y) by (intros; cbn; apply upd_neq; auto).
  assert (HO : b_pc s h <> Out) by congruence.
  assert (BY : forall y, y <> q -> blk s' y = blk s y).
  { intros y Hy. unfold blk. cbn.
    destruct (ud_cases (s_disk (b_a s)) 0 q zero_blk 0 y) as [(_ & X & _)|(_ & X)]; [congruence|exact X]. }
  destruct N as (N1 & N2).
  assert (F : Frame s s' h).
  { constructor; cbn [b_a b_ldr b_gen b_shb s' set_a_pc raise_floor set_disk s_floor s_last s_recs].
    - lia.
    - pose proof (g_floor c s B). split; [lia|]. intros y cr _ E. pose proof (floor_cur c s B y cr E).
      specialize (N2 y cr E). lia.
    - lia.
    - intros y Hy. rewrite PCY by auto. auto.
    - intros y Hy. auto.
    - intros y Hy. destruct (N.eq_dec y q) as [->|Hyq]; [|left; apply BY; auto].
      right. split; [unfold blk; cbn; apply ud_eq|]. split; [lia|].
      destruct (shares (b_pc s q)) eqn:E; [|reflexivity]. exfalso. eapply chk_noshare; eauto.
    - auto.
    - auto.
    - auto.
    - left. rewrite PCH, EP. auto. }
  apply (assemble c s s' h B F). constructor.
  - exact I1.
  - exact I2.
  - cbn. pose proof (g_last c s B h). lia.
  - apply (g_saved c s B).
  - auto.
  - cbn. lia.
  - rewrite BY by auto. cbn. destruct (g_disk c s B h); [auto|right; lia].
  - rewrite BY by auto. apply (g_rel c s B).
  - auto.
  - intros _. apply (g_host c s B h HO).
  - rewrite PCH. cbn [PI]. rewrite BY by auto. sps. discriminate.
  - rewrite PCH. intros v E. assert (E' : shares (b_pc s h) = Some v) by (rewrite EP; exact E).
    rewrite BY by auto. split; [|auto]. apply (g_s1 c s B h v E').
  - intros y v E _.
    assert (E' : shares (b_pc s y) = Some v).
    { destruct (N.eq_dec y h) as [->|Hy]; [rewrite PCH in E; rewrite EP; exact E|rewrite PCY in E by auto; auto]. }
    pose proof (g_sx c s B h y v E') as X. unfold SX in *. rewrite EP in X. rewrite PCH.
    intros LT Hy. destruct (X LT Hy) as (X1 & _). split; [exact X1|discriminate].
Qed.

Lemma binv_chk c s h s' : BInv c s -> bdisc s (BChk h) -> bstep c s (BChk h) = Some s' -> BInv c s'.
Proof.
  intros B D H. cbn [bstep] in H. cbn [bdisc] in D. pose proof (g_pc c s B h) as P.
  destruct (b_pc s h) as [| |m|m cur mx|m cur mbal copy a|m cur mbal a|m cur|m a lead|m lead todo live er
    |lead|k lead|k l|v'| |lead] eqn:EP; try discriminate. cbn [PI] in P.
  destruct er as [q|].
  { assert (H' : with_a (step c (b_a s) (AZero q 0))
                   (fun a => Some (set_a_pc s a h (Chk m lead todo live None))) = Some s')
      by (destruct m, todo, live; exact H).
    cbn [step with_a] in H'. injection H' as <-. apply binv_zero; auto. }
  destruct P as (P1 & P2 & P3 & P4 & P5 & P6).
  assert (HO : b_pc s h <> Out) by congruence.
  assert (HV : verof (b_pc s h) = Some (l_lver lead)) by (rewrite EP; reflexivity).
  assert (M : may_rewrite s h) by (left; rewrite P5; apply same_blk_refl).
  assert (MV : forall todo' live' er',
     er' <> Some h ->
     (forall y v, shares (b_pc s y) = Some v -> y <> h -> d_sh (blk s y) = b_gen s y -> 1 <= b_gen s y ->
        (live = true \/ In y todo) -> (live' = true \/ In y todo') /\ er' <> Some y) ->
     BInv c (set_pc s h (Chk m lead todo' live' er'))).
  { intros todo' live' er' HE HX. apply move; auto.
    - intros _. cbn [PI]. sps.
    - rewrite EP. auto.
    - intros y v E1 E2 X Y1 Y2 Y3. unfold SX in *. rewrite EP in X. rewrite set_pc_h. intros LT Hy.
      destruct (X LT Hy) as (X1 & _). apply (HX y v); auto. apply (g_s1 c s B y v E1). }
  destruct todo as [|q todo].
  - assert (NS : live = false -> forall y v, y <> h -> shares (b_pc s y) = Some v -> v < l_lver lead -> False).
    { intros EL y v Hy E LT. pose proof (g_sx c s B h y v E) as X. unfold SX in X. rewrite EP in X.
      destruct (X LT Hy) as ([X1|[]] & _). congruence. }
    destruct m as [| |v0]; [destruct live|destruct live; discriminate|destruct live].
    + match type of H with with_a ?o _ = _ => destruct o as [a2|] eqn:EA; [|discriminate] end.
      cbn [with_a] in H. injection H as <-. eapply relw_idle; eauto.
    + injection H as <-. apply move; auto.
      * intros _. cbn [PI]. sps.
      * discriminate.
      * intros y v E1 E2 X Y1 Y2 Y3. unfold SX. rewrite set_pc_h. intros LT.
        destruct (N.eq_dec y h) as [->|Hy]; [specialize (E2 eq_refl); discriminate|].
        apply (NS eq_refl y v Hy E1 LT).
    + injection H as <-. apply move_idle; auto. rewrite EP. auto.
    + match type of H with with_a ?o _ = _ => destruct o as [a2|] eqn:EA; [|discriminate] end.
      cbn [with_a] in H. injection H as <-. apply (relw_hold c s h a2 lead); auto. exact (NS eq_refl).
  - assert (H' : (if q =? h then Some (set_pc s h (Chk m lead todo live None))
          else if d_sh (blk s q) =? 0 then Some (set_pc s h (Chk m lead todo live None))
          else if alive s q (d_sh (blk s q)) then Some (set_pc s h (Chk m lead todo true None))
          else Some (set_pc s h (Chk m lead todo live (Some q)))) = Some s')
      by (destruct m, live; exact H). clear H.
    ifs H'; [|ifs H'; [|ifs H']]; injection H' as <-; apply MV.
    + discriminate.
    + intros y v E1 Hy E2 Y1 [X|[X|X]]; (split; [|discriminate]); auto. lia.
    + discriminate.
    + intros y v E1 Hy E2 Y1 [X|[X|X]]; (split; [|discriminate]); auto. subst y. lia.
    + discriminate.
    + intros y v E9 Hy E2 Y1 _. split; [auto|discriminate].
    + intros X. injection X as X. lia.
    + intros y v E3 Hy E2 Y1 X.
      assert (y <> q).
      { intros ->. unfold alive in E1. rewrite E2, N.eqb_refl, andb_true_r in E1.
        destruct (b_pc s q); cbn in E3; discriminate. }
      split; [destruct X as [X|[X|X]]; auto; congruence|congruence].
Qed.

(* ---- release ------------------------------------------------------------------------- *)
Lemma binv_release c s h s' : BInv c s -> bdisc s (BRelease h) -> bstep c s (BRelease h) = Some s' -> BInv c s'.
Proof.
  intros B D H. cbn [bstep] in H. cbn [bdisc] in D. pose proof (g_pc c s B h) as P.
  destruct (b_pc s h) as [| |m|m cur mx|m cur mbal copy a|m cur mbal a|m cur|m a lead|m lead todo live er
    |lead|k lead|k l|v'| |lead] eqn:EP; try discriminate; cbn [PI] in P.
  - destruct P as (P1 & P2 & P3 & P4).
    match type of H with with_a ?o _ = _ => destruct o as [a2|] eqn:EA; [|discriminate] end.
    cbn [with_a] in H. injection H as <-. eapply relw_idle; eauto; try congruence.
    left. rewrite P4. apply same_blk_refl.
  - match type of H with with_a ?o _ = _ => destruct o as [a2|] eqn:EA; [|discriminate] end.
    cbn [with_a] in H. injection H as <-. eapply relw_idle; eauto; try congruence.
Qed.

Lemma binv_down c s h s' : BInv c s -> bstep c s (BDown h) = Some s' -> BInv c s'.
Proof.
  intros B H. cbn [bstep] in H. pose proof (g_pc c s B h) as P.
  destruct (b_pc s h) as [| |m|m cur mx|m cur mbal copy a|m cur mbal a|m cur|m a lead|m lead todo live er
    |lead|k lead|k l|v'| |lead] eqn:EP; try discriminate; cbn [PI] in P.
  destruct P as (P1 & P2 & P3 & P4).
  match type of H with with_a ?o _ = _ => destruct o as [a2|] eqn:EA; [|discriminate] end.
  cbn [with_a] in H. injection H as <-. apply relw_share; auto. rewrite EP. reflexivity.
Qed.

Lemma binv_failsh c s h s' : BInv c s -> bdisc s (BFailSh h) -> bstep c s (BFailSh h) = Some s' -> BInv c s'.
Proof.
  intros B D H. cbn [bstep] in H. cbn [bdisc] in D. pose proof (g_pc c s B h) as P.
  destruct (b_pc s h) eqn:EP; try discriminate; cbn [PI] in P.
  match type of H with with_a ?o _ = _ => destruct o as [a2|] eqn:EA; [|discriminate] end.
  cbn [with_a] in H. injection H as <-. eapply relw_idle; eauto; try congruence.
Qed.

Lemma binv_erase c s h s' : BInv c s -> bdisc s (BErase h) -> bstep c s (BErase h) = Some s' -> BInv c s'.
Proof.
  intros B D H. cbn [bstep] in H. cbn [bdisc] in D. pose proof (g_pc c s B h) as P.
  destruct (b_pc s h) eqn:EP; try discriminate; cbn [PI] in P.
  match type of H with with_a ?o _ = _ => destruct o as [a2|] eqn:EA; [|discriminate] end.
  cbn [with_a] in H. injection H as <-. eapply relw_idle; eauto; try congruence.
Qed.

Lemma binv_relread c s h s' : BInv c s -> bstep c s (BRelRead h) = Some s' -> BInv c s'.
Proof.
  intros B H. cbn [bstep] in H. pose proof (g_pc c s B h) as P.
  destruct (b_pc s h) as [| |m|m cur mx|m cur mbal copy a|m cur mbal a|m cur|m a lead|m lead todo live er
    |lead|k lead|k l|v'| |lead] eqn:EP; try discriminate.
  assert (HO : b_pc s h <> Out) by congruence.
  assert (HL : s_loc (b_a s) h = Idle).
  { destruct k; cbn [PI] in P; try exact P; destruct P as (P & _); exact P. }
  ifs H.
  { injection H as <-. destruct k; apply move_idle; auto; rewrite ?EP; try (cbn; auto; fail); discriminate. }
  assert (EW : l_writer (b_ldr s) = h) by lia.
  ifs H.
  { destruct k as [|v|v|v].
    - injection H as <-. apply move_idle; auto. discriminate.
    - destruct P as (P1 & P2 & l & P3 & P4 & P5).
      match type of H with with_a ?o _ = _ => destruct o as [a2|] eqn:EA; [|discriminate] end.
      cbn [with_a] in H. injection H as <-. eapply relw_idle; eauto.
      left. rewrite P2. apply same_blk_refl.
    - destruct P as (P1 & P2 & l & P3 & P4 & P5). subst lead.
      destruct P5 as (A1 & A2 & A3 & A4 & A5 & A6 & A7 & A8). specialize (A7 EW).
      rewrite A7, N.eqb_refl, A1, A2, !N.eqb_refl, ldr_eqb_refl in E0. lia.
    - injection H as <-. apply move_idle; auto. rewrite EP. auto. }
  injection H as <-. apply orb_false_elim in E0. destruct E0 as [E0 _].
  apply orb_false_elim in E0. destruct E0 as [E0 E1]. apply orb_false_elim in E0. destruct E0 as [E0 E2].
  apply orb_false_elim in E0. destruct E0 as [_ E0].
  assert (EO : l_owner (b_ldr s) = h) by lia. assert (EG : l_gen (b_ldr s) = b_gen s h) by lia.
  apply move; auto.
  - intros F. cbn [PI]. sps. destruct (g_ldr c s B) as ([X|X] & _); [lia|]. rewrite EO, EG in X. exact X.
  - rewrite EP. auto.
  - intros y v _ _ _ _ _ _. unfold SX. rewrite set_pc_h. exact Logic.I.
Qed.

Lemma binv_relwrite c s h wts s' : BInv c s -> bdisc s (BRelWrite h wts) ->
  bstep c s (BRelWrite h wts) = Some s' -> BInv c s'.
Proof.
  intros B D H. cbn [bstep] in H. cbn [bdisc] in D. pose proof (g_pc c s B h) as P.
  destruct (b_pc s h) as [| |m|m cur mx|m cur mbal copy a|m cur mbal a|m cur|m a lead|m lead todo live er
    |lead|k lead|k l|v'| |lead] eqn:EP; try discriminate. cbn [PI] in P.
  specialize (D _ _ eq_refl). injection H as <-. destruct P as (P1 & P2 & P3 & P4).
  destruct (recd_start c s _ _ _ B P2) as (R1 & _).
  assert (HO : b_pc s h <> Out) by congruence.
  set (s' := mkB _ _ _ _ _).
  assert (PCH : b_pc s' h = rel_ok k) by (cbn; apply upd_eq).
  assert (PCY : forall y, y <> h -> b_pc s' y = b_pc s y) by (intros; cbn; apply upd_neq; auto).
  assert (VN : verof (rel_ok k) = None) by (destruct k; reflexivity).
  assert (EL : L s' = L s) by (cbn; lia).
  assert (F : Frame s s' h).
  { constructor; rewrite ?EL; cbn [b_a b_gen b_shb s'].
    - lia.
    - split; [apply (g_floor c s B)|]. intros y cr _. apply (floor_cur c s B).
    - lia.
    - intros y Hy. rewrite PCY by auto. auto.
    - auto.
    - auto.
    - auto.
    - auto.
    - right. reflexivity.
    - left. rewrite PCH, VN. auto. }
  assert (R' : recd s' (l_lver l) h (b_gen s h)) by exact P2.
  apply (assemble c s s' h B F). constructor; rewrite ?EL.
  - apply B.
  - apply B.
  - cbn. pose proof (g_last c s B h). lia.
  - apply (g_saved c s B).
  - auto.
  - lia.
  - apply (g_disk c s B).
  - apply (g_rel c s B).
  - right. unfold ldrok, freeok. cbn [b_ldr s' l_lver l_owner l_gen l_ts l_writer]. rewrite P3, P4. sps.
    intros _ _. exists h, (b_gen s h). split; auto. intros (_ & X). rewrite PCH, VN in X. discriminate.
  - intros _. apply (g_host c s B h HO).
  - rewrite PCH. destruct k; exact P1.
  - rewrite PCH. intros v E. assert (E' : shares (b_pc s h) = Some v) by (rewrite EP; destruct k; exact E).
    split; [|auto]. apply (g_s1 c s B h v E').
  - intros y v E _. unfold SX. rewrite PCH. destruct k; exact Logic.I.
Qed.

(* ---- every step -------------------------------------------------------------------------- *)
Theorem binv_step c s a s' : c_disks c = 1%nat -> c_hosts c <= c_max c ->
  BInv c s -> bdisc s a -> bstep c s a = Some s' -> BInv c s'.
Proof.
  intros HC HM B D H. destruct a.
  - eapply binv_join; eauto.
  - eapply binv_crash; eauto.
  - eapply binv_acquire; eauto.
  - eapply binv_convert; eauto.
  - eapply binv_shretry; eauto.
  - eapply binv_readldr; eauto.
  - eapply binv_decide; eauto.
  - eapply binv_retry; eauto.
  - eapply binv_read; eauto.
  - eapply binv_phase; eauto.
  - eapply binv_err; eauto.
  - eapply binv_err2; eauto.
  - eapply binv_commit; eauto.
  - eapply binv_comerr; eauto.
  - eapply binv_own; eauto.
  - eapply binv_chk; eauto.
  - eapply binv_release; eauto.
  - eapply binv_down; eauto.
  - eapply binv_relread; eauto.
  - eapply binv_relwrite; eauto.
  - eapply binv_failsh; eauto.
  - eapply binv_erase; eauto.
Qed.

Theorem breach_binv c s : c_disks c = 1%nat -> c_hosts c <= c_max c -> breach c bdisc s -> BInv c s.
Proof.
  intros HC HM R. induction R; [apply binv_init|]. eapply binv_step; eauto.
Qed.
