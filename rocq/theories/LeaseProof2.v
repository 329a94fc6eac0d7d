(* The invariant of LeaseProof.v is kept by every step of LeaseSys.v. *)
From Coq Require Import List NArith ZArith Lia Bool ZifyBool ZifyN ZifyNat Arith.
From Verif Require Import Majority Mbal Ballot BallotProof LeaseSys LeaseProof.
Import ListNotations.
Open Scope N_scope.

Ltac ifs H := match type of H with (if ?b then _ else _) = _ => let E := fresh "E" in destruct b eqn:E end.

Lemma set_pc_h s h p : b_pc (set_pc s h p) h = p.
Proof. apply upd_eq. Qed.
Lemma set_pc_y s h p y : y <> h -> b_pc (set_pc s h p) y = b_pc s y.
Proof. apply upd_neq. Qed.
Lemma set_a_pc_h s a h p : b_pc (set_a_pc s a h p) h = p.
Proof. apply upd_eq. Qed.
Lemma set_a_pc_y s a h p y : y <> h -> b_pc (set_a_pc s a h p) y = b_pc s y.
Proof. apply upd_neq. Qed.

(* the host only moves on *)
Lemma move c s h p : BInv c s -> b_pc s h <> Out ->
  (verof p = verof (b_pc s h) \/ verof p = None \/ verof p = Some (L s + 1)) ->
  (Frame s (set_pc s h p) h -> PI c (set_pc s h p) h p) ->
  (forall v, shares p = Some v -> shares (b_pc s h) = Some v) ->
  (forall y v, shares (b_pc s y) = Some v -> (y = h -> shares p = Some v) -> SX s h y v ->
     1 <= y -> y <= c_hosts c -> 1 <= b_gen s y -> SX (set_pc s h p) h y v) ->
  BInv c (set_pc s h p).
Proof.
  intros B HO HV HP HS HX. apply (pc_step c s _ h B); rewrite ?set_pc_h; auto.
  - intros y Hy. rewrite set_pc_y by auto. auto.
  - intros y v E E' X _ A1 A2 A3. apply HX; auto. intros ->. rewrite set_pc_h in E'. exact E'.
Qed.

(* to a place where nothing is known but that no ballot is running *)
Lemma move_idle c s h p : BInv c s -> b_pc s h <> Out -> verof p = None ->
  (match p with Ready | Acq _ | HoldSh _ | FailSh | Erase _ | Rel RFree _ | Rel (RBack _) _ => True | _ => False end) ->
  s_loc (b_a s) h = Idle ->
  (forall v, shares p = Some v -> shares (b_pc s h) = Some v) -> BInv c (set_pc s h p).
Proof.
  intros B HO HV HP HI HS. apply move; auto.
  - intros _. destruct p as [| | | | | | | | | |[ |v|v|v] lead| | | |]; try contradiction; exact HI.
  - intros y v _ _ _ _ _ _. unfold SX. rewrite set_pc_h. destruct p; try exact Logic.I; contradiction.
Qed.

Lemma binv_crash c s h s' : BInv c s -> bstep c s (BCrash h) = Some s' -> BInv c s'.
Proof.
  intros B H. cbn [bstep] in H.
  assert (HO : b_pc s h <> Out) by (intros E; rewrite E in H; discriminate).
  assert (E : s' = set_a_pc s (set_loc (b_a s) h Idle) h Out)
    by (destruct (b_pc s h); try congruence; cbn in H; congruence).
  rewrite E. apply binv_abort; auto. discriminate.
Qed.

Lemma binv_acquire c s h sh s' : BInv c s -> bstep c s (BAcquire h sh) = Some s' -> BInv c s'.
Proof.
  intros B H. cbn [bstep] in H. pose proof (g_pc c s B h) as P.
  destruct (b_pc s h) eqn:EP; try discriminate. cbn [PI] in P.
  cbn [step with_a] in H. injection H as <-.
  destruct (step_inv2 c (b_a s) (AReset h) (set_saved (b_a s) h zero_blk)) as (I1 & I2);
    [apply B|apply B|exact Logic.I|reflexivity|].
  set (s' := set_shb _ _ _).
  assert (PCH : b_pc s' h = Acq (if sh then MSh else MEx)) by (cbn; apply upd_eq).
  apply (quiet_step c s s' h B); rewrite ?PCH; auto.
  - constructor; cbn; auto.
    + rewrite upd_eq. cbn. lia.
    + intros y Hy. rewrite upd_neq by auto. auto.
    + intros y Hy. rewrite !upd_neq by auto. auto.
  - apply (g_disk c s B).
  - apply (g_rel c s B).
  - left. congruence.
  - intros v E. destruct sh; discriminate.
  - intros y v _ _ _ _ _ _ _. unfold SX. rewrite PCH. exact Logic.I.
Qed.

Lemma binv_convert c s h s' : BInv c s -> bstep c s (BConvert h) = Some s' -> BInv c s'.
Proof.
  intros B H. cbn [bstep] in H. pose proof (g_pc c s B h) as P.
  destruct (b_pc s h) eqn:EP; try discriminate. injection H as <-. cbn [PI] in P.
  set (s' := set_shb _ _ _).
  assert (PCH : b_pc s' h = Acq (MCv v)) by (cbn; apply upd_eq).
  apply (pc_step c s s' h B); rewrite ?PCH, ?EP; auto.
  - intros y Hy. cbn. rewrite !upd_neq by auto. auto.
  - discriminate.
  - intros y w _ _ _ _ _ _ _. unfold SX. rewrite PCH. exact Logic.I.
Qed.

Lemma binv_shretry c s h s' : BInv c s -> bstep c s (BShRetry h) = Some s' -> BInv c s'.
Proof.
  intros B H. cbn [bstep] in H. pose proof (g_pc c s B h) as P.
  destruct (b_pc s h) eqn:EP; try discriminate. injection H as <-.
  apply move_idle; auto; [congruence|discriminate].
Qed.

Lemma max_loop_some tmp l : exists m, max_mbal_loop tmp (map (fun b : N => (b, true)) l) = Some m.
Proof. revert tmp. induction l as [|b r IH]; cbn; intros; eauto. Qed.

Lemma max_mbal_of_ge c s h : 1 <= h -> h <= c_hosts c -> d_mbal (blk s h) <= max_mbal_of c s.
Proof.
  intros H1 H2. unfold max_mbal_of, max_mbal_one.
  destruct (max_loop_some 0 (map (fun h => d_mbal (blk s h)) (hosts c))) as (m & E).
  rewrite map_map in E. rewrite E. apply (max_loop_ge _ _ _ E) with (ok := true).
  apply in_map_iff. exists h. split; auto. apply in_hosts; auto.
Qed.

Lemma binv_readldr c s h s' : BInv c s -> bstep c s (BReadLdr h) = Some s' -> BInv c s'.
Proof.
  intros B H. cbn [bstep] in H. pose proof (g_pc c s B h) as P.
  destruct (b_pc s h) eqn:EP; try discriminate. injection H as <-. cbn [PI] in P.
  assert (HO : b_pc s h <> Out) by congruence. destruct (g_host c s B h HO) as (H1 & H2 & H3).
  destruct (g_ldr c s B) as (LO & FO & WO).
  apply move; auto.
  - intros F. cbn [PI]. split; [exact P|]. split; [|split; [|split]].
    + unfold curok. cbn [b_ldr b_a set_pc]. sps; try lia.
      * apply (g_floor c s B).
      * apply (g_last c s B).
      * intros r Hr _. apply (g_recs c s B r Hr).
      * intros v E. apply (g_s1 c s B h v). rewrite EP. exact E.
    + intros T1 T2. eapply closed_mono; eauto.
    + cbn [b_a set_pc]. intros E. pose proof (max_mbal_of_ge c s h H1 H2).
      destruct (g_disk c s B h) as [D|D]; [lia|]. pose proof (g_floor c s B). lia.
    + apply (g_rel c s B).
  - rewrite EP. auto.
  - intros y v _ _ _ _ _ _. unfold SX. rewrite set_pc_h. exact Logic.I.
Qed.

Lemma frame_curok_h s s' h m cur : Frame s s' h -> curok s h m cur -> b_ldr s' = b_ldr s ->
  s_floor (b_a s') = s_floor (b_a s) -> lastl s' h <= l_lver cur + 1 -> s_recs (b_a s') = s_recs (b_a s) ->
  curok s' h m cur.
Proof.
  intros F (A1 & A2 & A3 & A4 & A5 & A6 & A7) EL EF EA ER. unfold curok. rewrite EL, EF, ER. sps.
  destruct A6 as [A6|A6]; [left; auto|right; eapply recd_mono; eauto].
Qed.

Lemma lost_idle c s h m : BInv c s -> b_pc s h <> Out -> s_loc (b_a s) h = Idle ->
  (forall v, mshare m = Some v -> shares (b_pc s h) = Some v) -> BInv c (set_pc s h (lost m)).
Proof.
  intros B HO HI HS. apply move_idle; auto; destruct m; cbn in *; auto; intros; discriminate.
Qed.

Lemma binv_decide c s h s' : c_hosts c <= c_max c -> BInv c s -> bstep c s (BDecide h) = Some s' -> BInv c s'.
Proof.
  intros HM B H. cbn [bstep] in H. pose proof (g_pc c s B h) as P.
  destruct (b_pc s h) eqn:EP; try discriminate. cbn [PI] in P.
  destruct P as (P1 & P2 & P3 & P4 & P5).
  assert (HO : b_pc s h <> Out) by congruence. destruct (g_host c s B h HO) as (H1 & H2 & H3).
  destruct (takeover s h cur) eqn:T; injection H as <-.
  2:{ apply lost_idle; auto. rewrite EP. auto. }
  assert (C1 : closed1 s (l_lver cur)).
  { intros V1. destruct P2 as (_ & _ & _ & _ & _ & [X|X] & _); [lia|].
    unfold takeover, copies in T. apply orb_prop in T. destruct T as [T|T].
    - apply orb_prop in T. destruct T as [T|T].
      + apply orb_prop in T. destruct T as [T|T].
        * apply P3; lia.
        * exists (l_owner cur), (l_gen cur). split; auto. intros (M1 & M2).
          assert (EO : l_owner cur = h) by lia. rewrite EO, EP in M2. cbn in M2. injection M2. lia.
      + exists (l_owner cur), (l_gen cur). split; auto. intros (M1 & M2).
        unfold alive in T. rewrite M1, N.eqb_refl, andb_true_r in T.
        destruct (b_pc s (l_owner cur)); cbn in M2, T; discriminate.
    - apply andb_prop in T. destruct T as [_ T].
      exists (l_owner cur), (l_gen cur). split; auto. intros (M1 & M2).
      set (o := l_owner cur) in *. pose proof (g_pc c s B o) as PO.
      destruct (recd_start c s _ _ _ B X) as (R1 & R2 & R3).
      destruct (b_pc s o); cbn [verof PI] in *; try discriminate; injection M2 as M2.
      + destruct PO as (_ & _ & _ & _ & PO). specialize (PO T). lia.
      + destruct PO as (_ & _ & _ & _ & _ & PO & _). specialize (PO T). lia.
      + destruct PO as (_ & _ & _ & _ & PO & _). congruence.
      + destruct PO as (_ & _ & _ & PO). congruence.
      + destruct PO as (_ & _ & _ & PO & _). congruence.
      + destruct PO as (_ & _ & PO & _). congruence.
      + destruct PO as (_ & _ & PO & _). congruence. }
  apply move; auto.
  - left. rewrite EP. reflexivity.
  - intros F. cbn [PI]. sps.
    + intros V1. eapply closed_mono; eauto.
    + cbn [b_a set_pc]. intros E. specialize (P4 E).
      pose proof (first_mbal_gt mx (c_max c) h ltac:(lia) ltac:(lia)). lia.
    + unfold balok. split.
      * pose proof (nth_mbal_mod mx (c_max c) h 0 ltac:(lia)) as X. unfold nth_mbal in X.
        rewrite N.mul_0_l, N.add_0_r in X. exact X.
      * pose proof (first_mbal_gt mx (c_max c) h ltac:(lia) ltac:(lia)). lia.
    + congruence.
  - rewrite EP. auto.
  - intros y v _ _ _ _ _ _. unfold SX. rewrite set_pc_h. congruence.
Qed.

(* ---- AStart; AWrite; AWdone ---------------------------------------------------- *)
Lemma start_effect c a h V mb g sh a1 : Inv c a -> VInv a -> s_loc a h = Idle ->
  disciplined a (AStart h V mb g) ->
  ostep c (ostep c (step c a (AStart h V mb g)) (AWrite h 0 true sh)) (AWdone h) = Some a1 ->
  Inv c a1 /\ VInv a1 /\
  s_disk a1 = upd_disk (s_disk a) 0 h (with_flags (phase1_blk V mb) false sh) /\
  s_loc a1 h = Rd P1 (phase1_blk V mb) [0%nat] [] /\
  (forall y, y <> h -> s_loc a1 y = s_loc a y) /\
  s_last a1 = upd (s_last a) h (phase1_blk V mb) /\
  s_recs a1 = s_recs a /\ s_starts a1 = (h, V, g) :: s_starts a /\
  s_saved a1 = s_saved a /\ s_floor a1 = s_floor a.
Proof.
  intros I1 I2 HL HD H.
  destruct (step c a (AStart h V mb g)) as [b1|] eqn:E1; [|discriminate]. cbn [ostep] in H.
  destruct (step c b1 (AWrite h 0 true sh)) as [b2|] eqn:E2; [|discriminate]. cbn [ostep] in H.
  destruct (step_inv2 _ _ _ _ I1 I2 HD E1) as (J1 & J2).
  destruct (step_inv2 c b1 (AWrite h 0 true sh) _ J1 J2 Logic.I E2) as (K1 & K2).
  destruct (step_inv2 c b2 (AWdone h) _ K1 K2 Logic.I H) as (M1 & M2).
  split; [auto|]. split; [auto|]. clear I1 I2 J1 J2 K1 K2 M1 M2.
  cbn [step] in E1. ifs E1; [|discriminate]. injection E1 as <-.
  cbn [step s_loc] in E2. rewrite upd_eq in E2. ifs E2; [|discriminate]. injection E2 as <-.
  cbn [step s_loc set_loc set_disk] in H. rewrite upd_eq in H. ifs H; [|discriminate].
  injection H as <-. cbn. rewrite upd_eq. sps.
  intros y Hy. now rewrite !upd_neq by auto.
Qed.

Lemma blk_upd s a1 h x : s_disk a1 = upd_disk (s_disk (b_a s)) 0 h x ->
  s_disk a1 0%nat h = x /\ forall y, y <> h -> s_disk a1 0%nat y = blk s y.
Proof.
  intros E. rewrite E. split; [apply ud_eq|]. intros y Hy.
  destruct (ud_cases (s_disk (b_a s)) 0 h x 0 y) as [(_ & X & _)|(_ & X)]; [congruence|exact X].
Qed.

Lemma ldr_eqb_eq a b : ldr_eqb a b = true -> a = b.
Proof.
  unfold ldr_eqb. intros H. repeat (apply andb_prop in H; let X := fresh in destruct H as [H X]).
  destruct a, b. cbn in *. apply Bool.eqb_prop in H0. f_equal; try lia; auto.
Qed.
Lemma ldr_eqb_refl a : ldr_eqb a a = true.
Proof. unfold ldr_eqb. rewrite !N.eqb_refl, Bool.eqb_reflx. reflexivity. Qed.

(* a step that changes the ballot part of host h only *)
Record Step1 (c : cfg) (s : bst) (a1 : Ballot.st) (h : N) : Prop := mkS1 {
  t_inv : Inv c a1;
  t_v : VInv a1;
  t_loc : forall y, y <> h -> s_loc a1 y = s_loc (b_a s) y;
  t_last : forall y, y <> h -> s_last a1 y = s_last (b_a s) y;
  t_saved : s_saved a1 = s_saved (b_a s);
  t_floor : s_floor a1 = s_floor (b_a s);
  t_disk : forall y, y <> h -> s_disk a1 0%nat y = blk s y;
  t_recs : s_recs a1 = s_recs (b_a s) }.

Lemma floor_cur c s : BInv c s -> forall y cur, curof (b_pc s y) = Some cur -> s_floor (b_a s) <= l_lver cur.
Proof.
  intros B. destruct (quiet_floor c s s 0 B (quiet_pc c s s 0 B eq_refl eq_refl eq_refl (fun y _ => conj eq_refl eq_refl)))
    as (_ & _ & X). exact X.
Qed.

Lemma step1_frame c s a1 h p shb : BInv c s -> Step1 c s a1 h ->
  (forall y, y <> h -> shb y = b_shb s y) ->
  (verof p = verof (b_pc s h) \/ verof p = None \/ verof p = Some (L s + 1)) ->
  Frame s (mkB a1 (b_ldr s) (upd (b_pc s) h p) (b_gen s) shb) h.
Proof.
  intros B T SH HV. constructor; cbn [b_a b_ldr b_pc b_gen b_shb blk].
  - lia.
  - rewrite (t_floor _ _ _ _ T). split; [apply (g_floor c s B)|]. intros y cur _. apply (floor_cur c s B).
  - rewrite (t_floor _ _ _ _ T). lia.
  - intros y Hy. rewrite upd_neq by auto. auto.
  - intros y Hy. rewrite (t_loc _ _ _ _ T), (t_last _ _ _ _ T), (t_saved _ _ _ _ T) by auto. auto.
  - intros y Hy. left. apply (t_disk _ _ _ _ T y Hy).
  - rewrite (t_recs _ _ _ _ T). auto.
  - rewrite (t_recs _ _ _ _ T). auto.
  - auto.
  - left. rewrite upd_eq. auto.
Qed.

Lemma step1 c s a1 h p shb : BInv c s -> Step1 c s a1 h ->
  (forall y, y <> h -> shb y = b_shb s y) -> b_pc s h <> Out ->
  (verof p = verof (b_pc s h) \/ verof p = None \/ verof p = Some (L s + 1)) ->
  let s' := mkB a1 (b_ldr s) (upd (b_pc s) h p) (b_gen s) shb in
  lastl s h <= lastl s' h -> lastl s' h <= L s + 1 ->
  (forall o V g, In (o, V, g) (s_starts a1) -> In (o, V, g) (s_starts (b_a s)) \/
       (o = h /\ V <= lastl s' h /\ g <= b_gen s h)) ->
  d_mbal (blk s' h) = d_mbal (s_last a1 h) ->
  (d_rel (blk s' h) = true -> lastl s' h <= L s) ->
  (Frame s s' h -> PI c s' h p) ->
  shares p = shares (b_pc s h) ->
  (forall v, shares p = Some v -> d_sh (blk s' h) = b_gen s h) ->
  (forall y v, shares (b_pc s y) = Some v -> SX s h y v -> S1 s' y v -> 1 <= y -> y <= c_hosts c ->
     1 <= b_gen s y -> SX s' h y v) ->
  BInv c s'.
Proof.
  intros B T SH HO HV s' HL1 HL2 HST HD HR HP HS HS1 HX.
  pose proof (step1_frame c s a1 h p shb B T SH HV) as F. fold s' in F.
  assert (PCH : b_pc s' h = p) by (cbn; apply upd_eq).
  assert (PCY : forall y, y <> h -> b_pc s' y = b_pc s y) by (intros; cbn; apply upd_neq; auto).
  apply (assemble c s s' h B F). constructor.
  - apply T.
  - apply T.
  - auto.
  - cbn. rewrite (t_saved _ _ _ _ T). apply (g_saved c s B).
  - exact HST.
  - cbn. lia.
  - left. exact HD.
  - exact HR.
  - auto.
  - intros _. apply (g_host c s B h HO).
  - rewrite PCH. auto.
  - rewrite PCH. intros v E. split; [eauto|]. left. congruence.
  - intros y v E S.
    assert (E' : shares (b_pc s y) = Some v).
    { destruct (N.eq_dec y h) as [->|Hy]; [rewrite PCH in E; congruence|rewrite PCY in E by auto; auto]. }
    assert (HO' : b_pc s y <> Out) by (intros X; rewrite X in E'; discriminate).
    destruct (g_host c s B y HO') as (X1 & X2 & X3). apply HX; auto. apply (g_sx c s B); auto.
Qed.

Lemma binv_retry c s h s' : BInv c s -> bdisc s (BRetry h) -> bstep c s (BRetry h) = Some s' -> BInv c s'.
Proof.
  intros B D H. cbn [bstep] in H. cbn [bdisc] in D. pose proof (g_pc c s B h) as P.
  destruct (b_pc s h) as [| |m|m cur mx|m cur mbal copy a|m cur mbal a|m cur|m a lead|m lead todo live er
    |lead|k lead|k l|v'| |lead] eqn:EP; try discriminate. cbn [PI] in P.
  specialize (D _ _ _ _ _ eq_refl).
  destruct P as (P1 & P2 & P3 & P4 & P5 & P6 & P7).
  pose proof P2 as (A1 & A2 & A3 & A4 & A5 & A6 & A7).
  assert (HO : b_pc s h <> Out) by congruence. destruct (g_host c s B h HO) as (H1 & H2 & H3).
  assert (SE : shares (b_pc s h) = mshare m) by (rewrite EP; reflexivity).
  set (tmp := if copy then cur else b_ldr s) in *.
  ifs H; [|ifs H; [|ifs H]].
  - assert (ET : tmp = b_ldr s).
    { subst tmp. destruct copy; [|reflexivity]. cbn in E. lia. }
    clearbody tmp. subst tmp. ifs H; injection H as <-; [|apply lost_idle; auto; congruence].
    assert (EA : a = ADone).
    { destruct a; auto; exfalso; apply D; try discriminate; lia. }
    destruct (g_ldr c s B) as (LO & FO & WO).
    assert (EO : l_owner (b_ldr s) = h) by lia. assert (EG : l_gen (b_ldr s) = b_gen s h) by lia.
    assert (DR : d_rel (blk s h) = false) by (apply P7; congruence).
    apply move; auto.
    + left. rewrite EP. cbn. f_equal. lia.
    + intros F. cbn [PI]. sps.
      * unfold leadok. cbn [b_ldr b_a b_gen set_pc]. sps; try lia.
        destruct LO as [LO|LO]; [lia|]. rewrite EO, EG in LO. exact LO.
      * intros v E1. specialize (A7 v E1). lia.
    + rewrite SE. auto.
    + intros y v E1 E2 X _ _ _. unfold SX in *. rewrite set_pc_h. rewrite EP in X. cbn [b_shb set_pc].
      intros LT. apply X; [auto|lia].
  - injection H as <-. apply move_idle; auto; rewrite ?SE; auto.
  - injection H as <-. apply move_idle; auto; rewrite ?SE; auto.
  - match type of H with with_a ?o _ = _ => destruct o as [a1|] eqn:EA; [|discriminate] end.
    cbn [with_a] in H. injection H as <-.
    apply start_effect in EA; [|apply B|apply B|exact P1|].
    2:{ cbn [disciplined]. split; [|split].
        - unfold lt2, key. cbn. destruct (N.eq_dec (lastl s h) (l_lver cur + 1)) as [X|X]; [|lia].
          right. split; auto.
        - intros r R1 R2. specialize (A4 r R1 R2). lia.
        - lia. }
    destruct EA as (I1 & I2 & X1 & X2 & X3 & X4 & X5 & X6 & X7 & X8).
    destruct (blk_upd _ _ _ _ X1) as (BH & BY).
    assert (LH : s_last a1 h = phase1_blk (l_lver cur + 1) mbal) by (rewrite X4; apply upd_eq).
    unfold set_a_pc. apply step1; auto; unfold blk; cbn [b_a b_ldr b_gen b_shb]; rewrite ?LH; cbn [d_lver phase1_blk].
    + constructor; auto. intros y Hy. rewrite X4. apply upd_neq; auto.
    + left. rewrite EP. reflexivity.
    + lia.
    + lia.
    + rewrite X6. intros o V g [X|X]; [|auto]. right. injection X as <- <- <-. lia.
    + rewrite BH. reflexivity.
    + rewrite BH. discriminate.
    + intros F. cbn [PI]. unfold blk; cbn [b_a b_ldr b_gen b_shb]. sps.
      * eapply frame_curok_h; eauto. cbn. rewrite LH. cbn. lia.
      * intros V1. eapply closed_mono; eauto.
      * exists Ballot.P1, (phase1_blk (l_lver cur + 1) mbal), [0%nat], []. rewrite LH. sps. discriminate.
      * rewrite BH. reflexivity.
      * destruct a; discriminate.
    + intros v E2. rewrite BH. cbn. cbn in E2. destruct m; try discriminate. reflexivity.
    + intros y v E2 X S Y1 Y2 Y3. unfold SX in *. cbn [b_pc b_a b_shb]. rewrite upd_eq. rewrite EP in X.
      split.
      * intros E3. apply X. destruct a; congruence.
      * intros y0 w0 seen b E3 _ E4. rewrite X2 in E3. injection E3 as <- <- <-. destruct E4.
Qed.

(* ---- the phases ------------------------------------------------------------------ *)
Lemma binv_read c s h s' : BInv c s -> bstep c s (BRead h) = Some s' -> BInv c s'.
Proof.
  intros B H. cbn [bstep] in H. pose proof (g_pc c s B h) as P.
  destruct (b_pc s h) as [| |m|m cur mx|m cur mbal copy a|m cur mbal a|m cur|m a lead|m lead todo live er
    |lead|k lead|k l|v'| |lead] eqn:EP; try discriminate. cbn [PI] in P.
  destruct (s_loc (b_a s) h) as [| |p x w seen|] eqn:EL; try discriminate.
  ifs H; [|discriminate]. set (q := N.of_nat (length seen) + 1) in *.
  destruct (step c (b_a s) (ARead h 0 q)) as [a1|] eqn:E1; [|discriminate]. cbn [with_a] in H. injection H as <-.
  destruct (step_inv2 c (b_a s) (ARead h 0 q) a1) as (I1 & I2); [apply B|apply B|exact Logic.I|exact E1|].
  cbn [step] in E1. rewrite EL in E1. ifs E1; [|discriminate]. injection E1 as <-.
  set (s' := mkB _ _ _ _ _).
  assert (HO : b_pc s h <> Out) by congruence.
  destruct P as (P1 & P2 & P3 & (p0 & x0 & w0 & seen0 & Q1 & Q2 & Q3 & Q4 & Q5) & P5 & P6).
  injection Q1 as <- <- <- <-.
  assert (PCH : b_pc s' h = Bal m cur mbal a) by exact EP.
  apply (quiet_step c s s' h B); rewrite ?PCH, ?EP; auto.
  - constructor; cbn; auto.
    + apply (g_saved c s B).
    + intros y Hy. rewrite upd_neq by auto. auto.
  - apply (g_disk c s B).
  - apply (g_rel c s B).
  - left. congruence.
  - intros F. cbn [PI]. sps.
    exists p, x, w, (seen ++ [(0%nat, q, s_disk (b_a s) 0%nat q)]). cbn. rewrite upd_eq. sps.
  - intros v E2. split; [|auto]. apply (g_s1 c s B h v). rewrite EP. exact E2.
  - intros y v E1 E2 X S Y1 Y2 Y3. unfold SX in *. rewrite PCH. rewrite EP in X. destruct X as (X1 & X2).
    split; [exact X1|]. cbn. rewrite upd_eq. intros y0 w0' sn b E3 LT HIN. injection E3 as -> -> -> <-.
    apply in_app_or in HIN. destruct HIN as [HIN|[HIN|[]]]; [eapply X2; eauto|].
    injection HIN as <- <-. destruct S as (S & _). unfold blk in S. cbn in S. rewrite S. lia.
Qed.

Lemma shscan_go lver mbal seen mx0 mx d q b :
  scan1 lver mbal (map snd seen) mx0 = ScanGo mx -> In (d, q, b) seen -> d_sh b <> 0 ->
  In q (shscan lver mbal seen).
Proof.
  revert mx0. induction seen as [|((d', q'), b') r IH]; cbn [map snd scan1 shscan In]; intros mx0 H HIN HB.
  - destruct HIN.
  - assert (HI : forall l, (d', q', b') = (d, q, b) -> In q ((if d_sh b' =? 0 then [] else [q']) ++ l)).
    { intros l X. injection X as -> -> ->. destruct (N.eqb_spec (d_sh b) 0); [contradiction|]. left; auto. }
    destruct (d_lver b' <? lver).
    + destruct HIN as [HIN|HIN]; [auto|]. apply in_or_app. right. eauto.
    + destruct (lver <? d_lver b'); [discriminate|]. destruct (mbal <? d_mbal b'); [discriminate|].
      destruct HIN as [HIN|HIN]; [auto|]. apply in_or_app. right.
      destruct (d_inp b' =? 0); [eauto|]. destruct (d_bal b' =? 0); [eauto|].
      destruct (d_bal mx0 <? d_bal b'); eauto.
Qed.

Lemma phase2_effect c a h now x w seen mx sh a1 a2 : Inv c a -> VInv a -> s_loc a h = Rd P1 x w seen ->
  scan1 (d_lver x) (d_mbal x) (map snd seen) zero_blk = ScanGo mx ->
  step c a (ARdone h now) = Some a1 ->
  ostep c (step c a1 (AWrite h 0 true sh)) (AWdone h) = Some a2 ->
  let y := phase2_blk x mx h (s_gen a h) now in
  Inv c a2 /\ VInv a2 /\
  s_disk a2 = upd_disk (s_disk a) 0 h (with_flags y false sh) /\
  s_loc a2 h = Rd P2 y [0%nat] [] /\
  (forall q, q <> h -> s_loc a2 q = s_loc a q) /\
  s_last a2 = upd (s_last a) h y /\
  s_recs a2 = s_recs a /\ s_starts a2 = s_starts a /\
  s_saved a2 = s_saved a /\ s_floor a2 = s_floor a /\ maj c (read_full c seen) = true.
Proof.
  intros I1 I2 HL HG E1 H y.
  destruct (step c a1 (AWrite h 0 true sh)) as [b2|] eqn:E2; [|discriminate]. cbn [ostep] in H.
  destruct (step_inv2 c a (ARdone h now) _ I1 I2 Logic.I E1) as (J1 & J2).
  destruct (step_inv2 c a1 (AWrite h 0 true sh) _ J1 J2 Logic.I E2) as (K1 & K2).
  destruct (step_inv2 c b2 (AWdone h) _ K1 K2 Logic.I H) as (M1 & M2).
  split; [auto|]. split; [auto|]. clear I1 I2 J1 J2 K1 K2 M1 M2.
  cbn [step] in E1. rewrite HL in E1. ifs E1; [|discriminate]. rewrite HG in E1. injection E1 as <-.
  cbn [step s_loc] in E2. rewrite upd_eq in E2. ifs E2; [|discriminate]. injection E2 as <-.
  cbn [step s_loc set_loc set_disk] in H. rewrite upd_eq in H. ifs H; [|discriminate].
  injection H as <-. cbn. rewrite upd_eq. sps.
  - intros q Hq. now rewrite !upd_neq by auto.
  - apply andb_prop in E. tauto.
Qed.

Lemma phase2_lm x mx h g now : d_lver (phase2_blk x mx h g now) = d_lver x /\ d_mbal (phase2_blk x mx h g now) = d_mbal x.
Proof. unfold phase2_blk. destruct (d_inp mx =? 0); auto. Qed.

(* a ballot that was abandoned by run_ballot itself *)
Lemma binv_again c s h m cur mbal a shb : c_hosts c <= c_max c -> BInv c s ->
  b_pc s h = Bal m cur mbal a -> (forall y, y <> h -> shb y = b_shb s y) ->
  (forall y, In y (b_shb s h) -> In y (shb h)) ->
  BInv c (mkB (set_loc (b_a s) h Idle) (b_ldr s) (upd (b_pc s) h (Run m cur (mbal + c_max c) false a)) (b_gen s) shb).
Proof.
  intros HM B EP SH SI. pose proof (g_pc c s B h) as P. rewrite EP in P. cbn [PI] in P.
  destruct P as (P1 & P2 & P3 & (p0 & x0 & w0 & seen0 & Q1 & Q2 & Q3 & Q4 & Q5) & P5 & P6).
  destruct (step_inv2 c (b_a s) (AAbort h) (set_loc (b_a s) h Idle)) as (I1 & I2);
    [apply B|apply B|exact Logic.I|reflexivity|].
  set (s' := mkB _ _ _ _ _).
  assert (PCH : b_pc s' h = Run m cur (mbal + c_max c) false a) by (cbn; apply upd_eq).
  assert (HO : b_pc s h <> Out) by congruence. destruct (g_host c s B h HO) as (H1 & H2 & H3).
  apply (quiet_step c s s' h B); rewrite ?PCH, ?EP; auto.
  - constructor; cbn; auto.
    + apply (g_saved c s B).
    + intros y Hy. rewrite upd_neq by auto. auto.
    + intros y Hy. rewrite upd_neq by auto. auto.
  - apply (g_disk c s B).
  - apply (g_rel c s B).
  - left. congruence.
  - intros F. cbn [PI]. sps.
    + cbn. apply upd_eq.
    + intros V1. eapply closed_mono; eauto.
    + cbn. intros _. rewrite <- Q4, Q3. lia.
    + destruct P3 as (B1 & B2). unfold balok. split; [|lia]. rewrite <- B1.
      rewrite <- (N.mul_1_l (c_max c)) at 1. apply N.mod_add. lia.
    + intros X. change (blk s' h) with (blk s h) in X. congruence.
  - intros v E2. split; [|auto]. apply (g_s1 c s B h v). rewrite EP. exact E2.
  - intros y v E1 E2 X S Y1 Y2 Y3. unfold SX in *. rewrite PCH. rewrite EP in X. cbn [b_shb s']. destruct X as (X & _).
    intros E3 LT. apply SI. auto.
Qed.

Lemma binv_phase c s h now s' : c_disks c = 1%nat -> c_hosts c <= c_max c -> BInv c s ->
  bstep c s (BPhase h now) = Some s' -> BInv c s'.
Proof.
  intros HC HM B H. cbn [bstep] in H. pose proof (g_pc c s B h) as P.
  destruct (b_pc s h) as [| |m|m cur mx|m cur mbal copy a|m cur mbal a|m cur|m a lead|m lead todo live er
    |lead|k lead|k l|v'| |lead] eqn:EP; try discriminate. cbn [PI] in P.
  destruct P as (P1 & P2 & P3 & (p0 & x0 & w0 & seen0 & Q1 & Q2 & Q3 & Q4 & Q5) & P5 & P6).
  pose proof P1 as (A1 & A2 & A3 & A4 & A5 & A6 & A7).
  destruct (s_loc (b_a s) h) as [| |p x w seen|] eqn:EL; try discriminate. injection Q1 as <- <- <- <-.
  assert (HO : b_pc s h <> Out) by congruence.
  assert (SE : shares (b_pc s h) = mshare m) by (rewrite EP; reflexivity).
  destruct p.
  - destruct (step c (b_a s) (ARdone h now)) as [a1|] eqn:E1; [|discriminate]. cbn [with_a] in H.
    pose proof E1 as E1'. cbn [step] in E1'. rewrite EL in E1'. ifs E1'; [|discriminate].
    set (s1 := set_shb s h _) in *.
    destruct (scan1 (d_lver x) (d_mbal x) (map snd seen) zero_blk) as [| |mx] eqn:ES.
    + injection E1' as <-. cbn [s_loc set_loc] in H. rewrite upd_eq in H. injection H as <-.
      apply (binv_again c s h m cur mbal a _ HM B EP).
      * intros y Hy. cbn. apply upd_neq; auto.
      * intros y. cbn. rewrite upd_eq. intros. apply in_or_app. auto.
    + injection E1' as <-. cbn [s_loc set_loc] in H. rewrite upd_eq in H. injection H as <-.
      apply (binv_again c s h m cur mbal a _ HM B EP).
      * intros y Hy. cbn. apply upd_neq; auto.
      * intros y. cbn. rewrite upd_eq. intros. apply in_or_app. auto.
    + assert (EW : s_loc a1 h = Wr Ballot.P2 (phase2_blk x mx h (s_gen (b_a s) h) now) []).
      { injection E1' as <-. cbn. apply upd_eq. }
      rewrite EW in H.
      match type of H with with_a ?o _ = _ => destruct o as [a2|] eqn:EA; [|discriminate] end.
      cbn [with_a] in H. injection H as <-.
      destruct (phase2_effect c (b_a s) h now x w seen mx _ a1 a2 (g_inv c s B) (g_v c s B) EL ES E1 EA)
        as (I1 & I2 & X1 & X2 & X3 & X4 & X5 & X6 & X7 & X8 & X9).
      set (y := phase2_blk x mx h (s_gen (b_a s) h) now) in *.
      destruct (phase2_lm x mx h (s_gen (b_a s) h) now) as (YL & YM). fold y in YL, YM.
      destruct (blk_upd _ _ _ _ X1) as (BH & BY).
      assert (LH : s_last a2 h = y) by (rewrite X4; apply upd_eq).
      apply (step1 c s a2 h (Bal m cur mbal ADone) (b_shb s1)); auto; unfold blk; cbn [b_a b_ldr b_gen b_shb]; rewrite ?LH, ?YL.
      * constructor; auto. intros z Hz. rewrite X4. apply upd_neq; auto.
      * intros z Hz. cbn. apply upd_neq; auto.
      * left. rewrite EP. reflexivity.
      * rewrite <- Q4. lia.
      * lia.
      * rewrite X6. auto.
      * rewrite BH. reflexivity.
      * rewrite BH. discriminate.
      * intros F. cbn [PI]. unfold blk; cbn [b_a b_ldr b_gen b_shb]. sps.
        -- eapply frame_curok_h; eauto. cbn. rewrite LH. lia.
        -- intros V1. eapply closed_mono; eauto.
        -- exists Ballot.P2, y, [0%nat], []. rewrite LH. sps; congruence.
        -- rewrite BH. reflexivity.
        -- discriminate.
      * intros v E2. rewrite BH. cbn. cbn in E2. destruct m; try discriminate. reflexivity.
      * intros z v E2 X S Z1 Z2 Z3. unfold SX in *. cbn [b_pc b_a b_shb]. rewrite upd_eq. rewrite EP in X.
        destruct X as (_ & X).
        split; [|intros y0 w0 sn b E3; rewrite X2 in E3; discriminate].
        intros _ LT. cbn. rewrite upd_eq. apply in_or_app. right.
        destruct (maj_meet c _ _ X9 X9) as (d & D1 & D2 & _). assert (d = 0%nat) by lia. subst d.
        destruct (read_full_in c seen 0 z D2 Z1 Z2) as (b & HIN).
        eapply shscan_go; eauto.
  - destruct (step c (b_a s) (ARdone h now)) as [a1|] eqn:E1; [|discriminate]. cbn [with_a] in H.
    destruct (step_inv2 c (b_a s) (ARdone h now) a1 (g_inv c s B) (g_v c s B) Logic.I E1) as (I1 & I2).
    cbn [step] in E1. rewrite EL in E1. ifs E1; [|discriminate].
    destruct (scan2 (d_lver x) (d_mbal x) (map snd seen)) as [| |mx] eqn:ES;
      injection E1 as <-; cbn [s_loc set_loc] in H; rewrite upd_eq in H; injection H as <-.
    + apply (binv_again c s h m cur mbal a _ HM B EP); auto.
    + apply (binv_again c s h m cur mbal a _ HM B EP); auto.
    + set (s' := set_a_pc _ _ _ _).
      assert (PCH : b_pc s' h = Com m cur) by (cbn; apply upd_eq).
      apply (quiet_step c s s' h B); rewrite ?PCH, ?EP; auto.
      * constructor; cbn; auto.
        -- apply (g_saved c s B).
        -- intros y Hy. rewrite upd_neq by auto. auto.
        -- intros y Hy. rewrite upd_neq by auto. auto.
      * apply (g_disk c s B).
      * apply (g_rel c s B).
      * left. congruence.
      * intros F. cbn [PI]. sps.
        -- intros V1. eapply closed_mono; eauto.
        -- exists x, w. cbn. rewrite upd_eq. auto.
      * intros v E2. split; [|auto]. apply (g_s1 c s B h v). rewrite EP. exact E2.
      * intros y v E1 E2 X S Y1 Y2 Y3. unfold SX in *. rewrite PCH. rewrite EP in X. cbn [b_shb s' set_a_pc].
        destruct X as (X & _). intros LT. auto.
Qed.

Lemma binv_err c s h s' : BInv c s -> bstep c s (BErr h) = Some s' -> BInv c s'.
Proof.
  intros B H. cbn [bstep] in H.
  destruct (b_pc s h) as [| |m|m cur mx|m cur mbal copy a|m cur mbal a|m cur|m a lead|m lead todo live er
    |lead|k lead|k l|v'| |lead] eqn:EP; try discriminate.
  destruct (s_loc (b_a s) h) as [| |[|] x w seen|] eqn:EL; try discriminate. cbn [step with_a] in H. injection H as <-.
  apply binv_abort; auto; rewrite ?EP; try congruence; destruct m; cbn; auto; intros; discriminate.
Qed.

Lemma binv_err2 c s h s' : BInv c s -> bstep c s (BErr2 h) = Some s' -> BInv c s'.
Proof.
  intros B H. cbn [bstep] in H.
  destruct (b_pc s h) as [| |m|m cur mx|m cur mbal copy a|m cur mbal a|m cur|m a lead|m lead todo live er
    |lead|k lead|k l|v'| |lead] eqn:EP; try discriminate.
  destruct (s_loc (b_a s) h) as [| |[|] x w seen|] eqn:EL; try discriminate. cbn [step with_a] in H. injection H as <-.
  apply binv_abort; auto; rewrite ?EP; try congruence; destruct m; cbn; auto; intros; discriminate.
Qed.
