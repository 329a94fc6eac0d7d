(* Invariant of the lease system of LeaseSys.v under the discipline stated
   below, used for C09, C11 and C29. *)
From Coq Require Import List NArith ZArith Lia Bool ZifyBool ZifyN ZifyNat Arith.
From Verif Require Import Majority Mbal Ballot BallotProof LeaseSys.
Import ListNotations.
Open Scope N_scope.

Notation L s := (l_lver (b_ldr s)).
Notation lastl s h := (d_lver (s_last (b_a s) h)).

Definition curof (p : pc) : option ldr :=
  match p with
  | Got _ cur _ | Run _ cur _ _ _ | Bal _ cur _ _ | Com _ cur => Some cur
  | _ => None
  end.

(* ---- discipline ------------------------------------------------------------ *)
(* every host that is competing, or has read the leader record in order to
   compete, is past version V *)
Definition nobody_at (s : bst) (V : N) : Prop :=
  V <= L s /\ forall y cur, curof (b_pc s y) = Some cur -> V <= l_lver cur.

(* host h may overwrite its block with r->dblock *)
Definition may_rewrite (s : bst) (h : N) : Prop :=
  same_blk (s_saved (b_a s) h) (s_last (b_a s) h) = true \/ nobody_at s (lastl s h).

Definition bdisc (s : bst) (a : bact) : Prop :=
  match a with
  | BCommit h _ =>
      (* no write of an old leader record; the decided owner is this host only
         with this generation *)
      forall m cur x w, b_pc s h = Com m cur -> s_loc (b_a s) h = Dec x w ->
        L s <= d_lver x /\ (d_inp x = h -> d_inp2 x = b_gen s h)
  | BComErr h _ landed =>
      forall m cur x w, b_pc s h = Com m cur -> s_loc (b_a s) h = Dec x w ->
        landed = true -> L s <= d_lver x
  | BRelWrite h _ => forall k l, b_pc s h = RelW k l -> L s <= l_lver l
  | BRetry h =>
      (* a host that finds itself recorded as owner has completed a phase 1 for
         that version in this acquire *)
      forall m cur mbal copy a, b_pc s h = Run m cur mbal copy a -> a <> ADone ->
        l_lver (b_ldr s) = l_lver cur + 1 -> l_owner (b_ldr s) = h -> l_gen (b_ldr s) = b_gen s h ->
        False
  | BRelease h => match b_pc s h with HoldSh _ => may_rewrite s h | _ => True end
  | BFailSh h | BErase h => may_rewrite s h
  | BChk h =>
      match b_pc s h with
      | Chk _ _ _ _ (Some q) => nobody_at s (lastl s q)
      | _ => True
      end
  | _ => True
  end.

(* ---- invariant --------------------------------------------------------------- *)
Definition recd (s : bst) (V o g : N) : Prop :=
  exists r, In r (s_recs (b_a s)) /\ r_lver r = V /\ fst (fst (r_val r)) = o /\ snd (fst (r_val r)) = g.

Definition verof (p : pc) : option N :=
  match p with
  | Got _ cur _ | Run _ cur _ _ _ | Bal _ cur _ _ | Com _ cur => Some (l_lver cur + 1)
  | Own _ _ lead | Chk _ lead _ _ _ | Hold lead => Some (l_lver lead)
  | _ => None
  end.

Definition may_hold (s : bst) (o g V : N) : Prop := b_gen s o = g /\ verof (b_pc s o) = Some V.
Definition closed (s : bst) (V : N) : Prop := exists o g, recd s V o g /\ ~ may_hold s o g V.

Definition ldrok (s : bst) (l : ldr) : Prop :=
  (l_lver l = 0 /\ l_ts l = 0) \/ recd s (l_lver l) (l_owner l) (l_gen l).
Definition freeok (s : bst) (l : ldr) : Prop :=
  l_ts l = 0 -> 1 <= l_lver l -> closed s (l_lver l).

Definition mshare (m : mode) : option N := match m with MCv v => Some v | _ => None end.
Definition kshare (k : rkind) : option N := match k with RFree => None | RShare v | RDown v | RBack v => Some v end.
Definition shares (p : pc) : option N :=
  match p with
  | HoldSh v => Some v
  | Rel k _ | RelW k _ => kshare k
  | Acq m | Got m _ _ | Run m _ _ _ _ | Bal m _ _ _ | Com m _ | Own m _ _ | Chk m _ _ _ _ => mshare m
  | _ => None
  end.

Definition curok (s : bst) (h : N) (m : mode) (cur : ldr) : Prop :=
  l_lver cur <= L s /\ s_floor (b_a s) <= l_lver cur /\ lastl s h <= l_lver cur + 1 /\
  (forall r, In r (s_recs (b_a s)) -> r_host r = h -> r_lver r <= l_lver cur) /\
  (l_writer (b_ldr s) = h -> L s <= l_lver cur) /\ ldrok s cur /\
  (forall v, mshare m = Some v -> v <= l_lver cur).

Definition leadok (s : bst) (h : N) (lead : ldr) : Prop :=
  l_owner lead = h /\ l_gen lead = b_gen s h /\ recd s (l_lver lead) h (b_gen s h) /\
  l_ts lead <> 0 /\ l_lver lead <= L s /\ 1 <= l_lver lead /\
  (l_writer (b_ldr s) = h -> b_ldr s = lead) /\ lastl s h <= l_lver lead.

Definition balok (c : cfg) (h b : N) : Prop := b mod c_max c = h mod c_max c /\ 1 <= b.
Definition closed1 (s : bst) (V : N) : Prop := 1 <= V -> closed s V.

Definition PI (c : cfg) (s : bst) (h : N) (p : pc) : Prop :=
  match p with
  | Out | Ready | Acq _ | HoldSh _ | FailSh | Erase _ | Rel RFree _ | Rel (RBack _) _ =>
      s_loc (b_a s) h = Idle
  | Got m cur mx =>
      s_loc (b_a s) h = Idle /\ curok s h m cur /\ freeok s cur /\
      (lastl s h = l_lver cur + 1 -> d_mbal (s_last (b_a s) h) <= mx) /\
      (d_rel (blk s h) = true -> lastl s h <= l_lver cur)
  | Run m cur mbal _ a =>
      s_loc (b_a s) h = Idle /\ curok s h m cur /\ closed1 s (l_lver cur) /\
      (lastl s h = l_lver cur + 1 -> d_mbal (s_last (b_a s) h) < mbal) /\ balok c h mbal /\
      (d_rel (blk s h) = true -> lastl s h <= l_lver cur) /\
      (a <> ANone -> d_rel (blk s h) = false)
  | Bal m cur mbal a =>
      curok s h m cur /\ closed1 s (l_lver cur) /\ balok c h mbal /\
      (exists p x w seen, s_loc (b_a s) h = Rd p x w seen /\ d_lver x = l_lver cur + 1 /\
          d_mbal x = mbal /\ x = s_last (b_a s) h /\ (p = P2 -> a = ADone)) /\
      d_rel (blk s h) = false /\ a <> ANone
  | Com m cur =>
      curok s h m cur /\ closed1 s (l_lver cur) /\
      (exists x w, s_loc (b_a s) h = Dec x w /\ d_lver x = l_lver cur + 1 /\ x = s_last (b_a s) h) /\
      d_rel (blk s h) = false
  | Own m a lead =>
      s_loc (b_a s) h = Idle /\ leadok s h lead /\ a = ADone /\ d_rel (blk s h) = false /\
      (forall v, mshare m = Some v -> v < l_lver lead)
  | Chk m lead _ _ er =>
      s_loc (b_a s) h = Idle /\ leadok s h lead /\ d_rel (blk s h) = false /\
      (forall v, mshare m = Some v -> v < l_lver lead) /\
      s_saved (b_a s) h = s_last (b_a s) h /\ er <> Some h
  | Hold lead =>
      s_loc (b_a s) h = Idle /\ leadok s h lead /\ d_rel (blk s h) = false /\
      s_saved (b_a s) h = s_last (b_a s) h
  | Rel (RShare v) lead | Rel (RDown v) lead =>
      s_loc (b_a s) h = Idle /\ s_saved (b_a s) h = s_last (b_a s) h /\
      exists l, lead = Some l /\ v = l_lver l /\ leadok s h l
  | RelW k l =>
      s_loc (b_a s) h = Idle /\ recd s (l_lver l) h (b_gen s h) /\ l_owner l = h /\ l_gen l = b_gen s h
  end.

(* x competing or holding while y shares since version v *)
Definition SX (s : bst) (x y v : N) : Prop :=
  match b_pc s x with
  | Run _ cur _ _ a => a = ADone -> v <= l_lver cur -> In y (b_shb s x)
  | Bal _ cur _ a =>
      (a = ADone -> v <= l_lver cur -> In y (b_shb s x)) /\
      (forall y0 w seen b, s_loc (b_a s) x = Rd P1 y0 w seen -> v <= l_lver cur ->
         In (0%nat, y, b) seen -> d_sh b <> 0)
  | Com _ cur => v <= l_lver cur -> In y (b_shb s x)
  | Own _ a lead => v < l_lver lead -> In y (b_shb s x)
  | Chk _ lead todo live er =>
      v < l_lver lead -> y <> x -> (live = true \/ In y todo) /\ er <> Some y
  | Hold lead => v < l_lver lead -> False
  | _ => True
  end.

Definition S1 (s : bst) (h v : N) : Prop :=
  d_sh (blk s h) = b_gen s h /\ 1 <= v /\ v <= L s /\ closed s v.

Record BInv (c : cfg) (s : bst) : Prop := mkBI {
  g_inv : Inv c (b_a s);
  g_v : VInv (b_a s);
  g_starts : forall o V g, In (o, V, g) (s_starts (b_a s)) -> V <= lastl s o /\ g <= b_gen s o;
  g_recs : forall r, In r (s_recs (b_a s)) -> r_lver r <= L s;
  g_closed : forall V, 1 <= V -> V < L s -> closed s V;
  g_floor : s_floor (b_a s) <= L s;
  g_last : forall h, lastl s h <= L s + 1;
  g_saved : forall h, d_lver (s_saved (b_a s) h) <= L s;
  g_disk : forall h, d_mbal (blk s h) = d_mbal (s_last (b_a s) h) \/ lastl s h <= s_floor (b_a s);
  g_rel : forall h, d_rel (blk s h) = true -> lastl s h <= L s;
  g_ldr : ldrok s (b_ldr s) /\ freeok s (b_ldr s) /\
          (l_ts (b_ldr s) = 0 -> 1 <= L s -> l_writer (b_ldr s) = l_owner (b_ldr s));
  g_host : forall h, b_pc s h <> Out -> 1 <= h /\ h <= c_hosts c /\ 1 <= b_gen s h;
  g_pc : forall h, PI c s h (b_pc s h);
  g_s1 : forall h v, shares (b_pc s h) = Some v -> S1 s h v;
  g_sx : forall x y v, shares (b_pc s y) = Some v -> SX s x y v }.

Lemma agree_inv c s r1 r2 : Inv c s ->
  In r1 (s_recs s) -> In r2 (s_recs s) -> r_lver r1 = r_lver r2 -> r_val r1 = r_val r2.
Proof.
  intros R H1 H2 E.
  assert (W : forall a b, In a (s_recs s) -> In b (s_recs s) -> r_lver a = r_lver b ->
                          r_bal a <= r_bal b -> r_val a = r_val b).
  { intros a b Ha Hb Eab LE. destruct a as [h V n v W], b as [h' V' n' v' W']. cbn in *. subst V'.
    destruct (i_comm c s R h' V n' v' W') as (_ & (p & Hp & P1' & P2' & P3' & P4') & _); [left; exact Hb|].
    rewrite <- P3'. symmetry. eapply (i_S c s R h V n v W); eauto; [left; exact Ha|lia]. }
  destruct (N.le_ge_cases (r_bal r1) (r_bal r2)); [auto|symmetry; auto].
Qed.

Lemma recd_agree c s V o g o' g' : Inv c (b_a s) -> recd s V o g -> recd s V o' g' -> o = o' /\ g = g'.
Proof.
  intros I (r & R1 & R2 & R3 & R4) (r' & R1' & R2' & R3' & R4').
  assert (E : r_val r = r_val r') by (eapply agree_inv; eauto; congruence).
  rewrite E in R3, R4. split; congruence.
Qed.

(* a version that the host may hold is not closed *)
Lemma not_closed c s h V : Inv c (b_a s) -> recd s V h (b_gen s h) -> verof (b_pc s h) = Some V ->
  ~ closed s V.
Proof.
  intros I R H (o & g & R' & N). destruct (recd_agree _ _ _ _ _ _ _ I R R') as [-> <-].
  apply N. split; auto.
Qed.

Lemma closed_below c s V W : BInv c s -> 1 <= V -> V <= W -> W <= L s -> closed1 s W -> closed s V.
Proof.
  intros B A LE LW C. destruct (N.eq_dec V W) as [->|]; [apply C; lia|].
  apply (g_closed c s B); lia.
Qed.

(* if v is not closed, nobody has gone past it *)
Lemma noclosed_SX c s x y v : BInv c s -> 1 <= v -> ~ closed s v -> SX s x y v.
Proof.
  intros B V1 N. pose proof (g_pc c s B x) as P. unfold SX.
  assert (CB : forall W, v <= W -> W <= L s -> closed1 s W -> False).
  { intros W H1 H2 H3. apply N. eapply closed_below; eauto. }
  assert (CL : forall W, v < W -> W <= L s -> False).
  { intros W H1 H2. apply N. apply (g_closed c s B); lia. }
  destruct (b_pc s x) as [| |m|m cur mx|m cur mbal copy a|m cur mbal a|m cur|m a lead|m lead todo live er
    |lead|k lead|k l|v'| |lead]; cbn [PI] in P; auto.
  - intros _ H. destruct P as (_ & (C & _) & D & _). exfalso. eauto.
  - destruct P as ((C & _) & D & _). split; [intros _ H|intros ? ? ? ? _ H]; exfalso; eauto.
  - destruct P as ((C & _) & D & _). intros H. exfalso. eauto.
  - destruct P as (_ & (_ & _ & _ & _ & C & _) & _). intros H. exfalso. eauto.
  - destruct P as (_ & (_ & _ & _ & _ & C & _) & _). intros H. exfalso. eauto.
  - destruct P as (_ & (_ & _ & _ & _ & C & _) & _). intros H. exfalso. eauto.
Qed.

(* ---- the two results follow from the invariant ------------------------------- *)
Lemma binv_ex c s x y : BInv c s -> holds_ex s x = true -> holds_ex s y = true -> x = y.
Proof.
  intros B. unfold holds_ex.
  pose proof (g_pc c s B x) as PX. pose proof (g_pc c s B y) as PY.
  destruct (b_pc s x) as [| | | | | | | | |lx| | | | |] eqn:EX; try discriminate.
  destruct (b_pc s y) as [| | | | | | | | |ly| | | | |] eqn:EY; try discriminate.
  intros _ _. cbn [PI] in PX, PY.
  destruct PX as (_ & (_ & _ & RX & _ & LX & X1 & _) & _).
  destruct PY as (_ & (_ & _ & RY & _ & LY & Y1 & _) & _).
  assert (NX : ~ closed s (l_lver lx)) by (eapply not_closed; [apply B|exact RX|now rewrite EX]).
  assert (NY : ~ closed s (l_lver ly)) by (eapply not_closed; [apply B|exact RY|now rewrite EY]).
  destruct (N.lt_trichotomy (l_lver lx) (l_lver ly)) as [H|[H|H]].
  - exfalso. apply NX. apply (g_closed c s B); lia.
  - rewrite H in RX. apply (recd_agree c s _ _ _ _ _ (g_inv c s B) RX RY).
  - exfalso. apply NY. apply (g_closed c s B); lia.
Qed.

Lemma holds_sh_shares s h : holds_sh s h = true -> exists v, shares (b_pc s h) = Some v.
Proof.
  unfold holds_sh. destruct (b_pc s h) as [| |m|m ? ?|m ? ? ? ?|m ? ? ?|m ?|m ? ?|m ? ? ? ?
    |lead|k lead|k l|v'| |lead]; try discriminate;
    try (destruct m; try discriminate; intros _; cbn; eauto);
    try (destruct k; try discriminate; intros _; cbn; eauto).
  intros _. cbn. eauto.
Qed.

Lemma binv_sh c s x y : BInv c s -> holds_ex s x = true -> holds_sh s y = true -> False.
Proof.
  intros B HX HY. apply holds_sh_shares in HY. destruct HY as (v & HY).
  pose proof (g_sx c s B x y v HY) as X. unfold holds_ex in HX.
  pose proof (g_pc c s B x) as PX. unfold SX in X.
  destruct (b_pc s x) as [| | | | | | | | |lx| | | | |] eqn:EX; try discriminate.
  destruct PX as (_ & (_ & _ & RX & _ & LX & X1 & _) & _).
  assert (NX : ~ closed s (l_lver lx)) by (eapply not_closed; [apply B|exact RX|now rewrite EX]).
  destruct (g_s1 c s B y v HY) as (_ & V1 & V2 & V3).
  destruct (N.lt_trichotomy (l_lver lx) v) as [H|[H|H]].
  - apply NX. apply (g_closed c s B); lia.
  - apply NX. now rewrite H.
  - auto.
Qed.

(* ---- one host's step ------------------------------------------------------------- *)
Record Frame (s s' : bst) (h : N) : Prop := mkF {
  f_L : L s <= L s';
  f_floor : s_floor (b_a s') <= L s' /\
            forall y cur, y <> h -> curof (b_pc s y) = Some cur -> s_floor (b_a s') <= l_lver cur;
  f_floor2 : s_floor (b_a s) <= s_floor (b_a s');
  f_pc : forall y, y <> h -> b_pc s' y = b_pc s y /\ b_gen s' y = b_gen s y /\ b_shb s' y = b_shb s y;
  f_a : forall y, y <> h -> s_loc (b_a s') y = s_loc (b_a s) y /\ s_last (b_a s') y = s_last (b_a s) y /\
                            s_saved (b_a s') y = s_saved (b_a s) y;
  f_disk : forall y, y <> h -> blk s' y = blk s y \/
             (blk s' y = zero_blk /\ lastl s y <= s_floor (b_a s') /\ shares (b_pc s y) = None);
  f_recs : forall r, In r (s_recs (b_a s)) -> In r (s_recs (b_a s'));
  f_newrecs : forall r, In r (s_recs (b_a s')) -> In r (s_recs (b_a s)) \/ (r_host r = h /\ r_lver r <= L s');
  f_ldr : b_ldr s' = b_ldr s \/ l_writer (b_ldr s') = h;
  f_gen : (b_gen s' h = b_gen s h /\
           (verof (b_pc s' h) = verof (b_pc s h) \/ verof (b_pc s' h) = None \/
            verof (b_pc s' h) = Some (L s + 1))) \/ b_gen s h < b_gen s' h }.

Lemma recd_mono s s' h V o g : Frame s s' h -> recd s V o g -> recd s' V o g.
Proof. intros F (r & R & X). exists r. split; [apply (f_recs _ _ _ F); exact R|exact X]. Qed.

Lemma recd_start c s V o g : BInv c s -> recd s V o g -> V <= L s /\ V <= lastl s o /\ g <= b_gen s o.
Proof.
  intros B (r & R1 & R2 & R3 & R4). split; [rewrite <- R2; apply (g_recs c s B); auto|].
  destruct (v_recs _ (g_v c s B) r R1) as (R5 & _). rewrite R2, R3, R4 in R5.
  apply (g_starts c s B) in R5. exact R5.
Qed.

Lemma closed_mono c s s' h V : BInv c s -> Frame s s' h -> closed s V -> closed s' V.
Proof.
  intros B F (o & g & R & N). exists o, g. split; [eapply recd_mono; eauto|].
  intros (M1 & M2). destruct (recd_start c s V o g B R) as (A1 & A2 & A3).
  destruct (N.eq_dec o h) as [->|Ho].
  - destruct (f_gen _ _ _ F) as [(G & [E|[E|E]])|G].
    + apply N. split; congruence.
    + congruence.
    + rewrite E in M2. injection M2 as M2. lia.
    + lia.
  - destruct (f_pc _ _ _ F o Ho) as (E1 & E2 & _). apply N. split; congruence.
Qed.

Lemma frame_lastl s s' h y : Frame s s' h -> y <> h -> lastl s' y = lastl s y.
Proof. intros F H. destruct (f_a _ _ _ F y H) as (_ & E & _). now rewrite E. Qed.

Lemma frame_curok c s s' h y m cur : BInv c s -> Frame s s' h -> y <> h -> curof (b_pc s y) = Some cur ->
  curok s y m cur -> curok s' y m cur.
Proof.
  intros B F Hy Hc (A1 & A2 & A3 & A4 & A5 & A6 & A7). unfold curok.
  rewrite (frame_lastl _ _ _ _ F Hy). sps.
  - pose proof (f_L _ _ _ F). lia.
  - eapply (proj2 (f_floor _ _ _ F)); eauto.
  - intros r Hr Eh. destruct (f_newrecs _ _ _ F r Hr) as [Hr'|(Hr' & _)]; [auto|congruence].
  - intros E. destruct (f_ldr _ _ _ F) as [E'|E']; [rewrite E' in *; auto|congruence].
  - destruct A6 as [A6|A6]; [left; auto|right; eapply recd_mono; eauto].
Qed.

Lemma frame_leadok c s s' h y lead : BInv c s -> Frame s s' h -> y <> h ->
  leadok s y lead -> leadok s' y lead.
Proof.
  intros B F Hy (A1 & A2 & A3 & A4 & A5 & A6 & A7 & A8). unfold leadok.
  rewrite (frame_lastl _ _ _ _ F Hy). destruct (f_pc _ _ _ F y Hy) as (_ & -> & _). sps.
  - eapply recd_mono; eauto.
  - pose proof (f_L _ _ _ F). lia.
  - intros E. destruct (f_ldr _ _ _ F) as [E'|E']; [rewrite E' in *; auto|congruence].
Qed.

Lemma frame_PI c s s' h y : BInv c s -> Frame s s' h -> y <> h -> PI c s' y (b_pc s' y).
Proof.
  intros B F Hy. pose proof (g_pc c s B y) as P.
  destruct (f_pc _ _ _ F y Hy) as (EP & EG & _). rewrite EP.
  destruct (f_a _ _ _ F y Hy) as (EL & ELA & ES).
  assert (CO : forall m cur, curof (b_pc s y) = Some cur -> curok s y m cur -> curok s' y m cur)
    by (intros; eapply frame_curok; eauto).
  assert (LO : forall lead, leadok s y lead -> leadok s' y lead)
    by (intros; eapply frame_leadok; eauto).
  assert (CL : forall V, closed s V -> closed s' V) by (intros; eapply closed_mono; eauto).
  assert (RC : forall V o g, recd s V o g -> recd s' V o g) by (intros; eapply recd_mono; eauto).
  assert (DR : d_rel (blk s' y) = true -> d_rel (blk s y) = true).
  { destruct (f_disk _ _ _ F y Hy) as [->|(-> & _)]; [auto|discriminate]. }
  assert (DR' : d_rel (blk s y) = false -> d_rel (blk s' y) = false).
  { intros E. destruct (d_rel (blk s' y)); auto. rewrite DR in E; auto. }
  assert (C1 : forall V, closed1 s V -> closed1 s' V) by (intros V H H1; auto).
  destruct (b_pc s y) as [| |m|m cur mx|m cur mbal copy a|m cur mbal a|m cur|m a lead|m lead todo live er
    |lead|[ |v|v|v] lead|k l|v'| |lead] eqn:EQ; cbn [PI] in *; rewrite ?EL, ?ELA, ?ES, ?EG; auto;
    cbn [curof] in CO.
  - destruct P as (A1 & A2 & A3 & A4 & A5). sps. intros X Y. apply CL. auto.
  - destruct P as (A1 & A2 & A3 & A4 & A5 & A6 & A7). sps.
  - destruct P as (A1 & A2 & A3 & A4 & A5 & A6). sps.
  - destruct P as (A1 & A2 & A3 & A4). sps.
  - destruct P as (A1 & A2 & A3 & A4 & A5). sps.
  - destruct P as (A1 & A2 & A3 & A4 & A5 & A6). sps.
  - destruct P as (A1 & A2 & A3 & A4). sps.
  - destruct P as (A1 & A2 & l & A3 & A4 & A5). sps. exists l. auto.
  - destruct P as (A1 & A2 & l & A3 & A4 & A5). sps. exists l. auto.
  - destruct P as (A1 & A2 & A3 & A4). sps.
Qed.

Record Hs (c : cfg) (s s' : bst) (h : N) : Prop := mkHs {
  h_inv : Inv c (b_a s');
  h_v : VInv (b_a s');
  h_last : lastl s h <= lastl s' h /\ lastl s' h <= L s' + 1;
  h_saved : d_lver (s_saved (b_a s') h) <= L s';
  h_starts : forall o V g, In (o, V, g) (s_starts (b_a s')) ->
      In (o, V, g) (s_starts (b_a s)) \/ (o = h /\ V <= lastl s' h /\ g <= b_gen s' h);
  h_closed : forall V, 1 <= V -> L s <= V -> V < L s' -> closed s' V;
  h_disk : d_mbal (blk s' h) = d_mbal (s_last (b_a s') h) \/ lastl s' h <= s_floor (b_a s');
  h_rel : d_rel (blk s' h) = true -> lastl s' h <= L s';
  h_ldr : b_ldr s' = b_ldr s \/
          (ldrok s' (b_ldr s') /\ freeok s' (b_ldr s') /\
           (l_ts (b_ldr s') = 0 -> 1 <= L s' -> l_writer (b_ldr s') = l_owner (b_ldr s')));
  h_host : b_pc s' h <> Out -> 1 <= h /\ h <= c_hosts c /\ 1 <= b_gen s' h;
  h_pc : PI c s' h (b_pc s' h);
  h_s1 : forall v, shares (b_pc s' h) = Some v ->
      d_sh (blk s' h) = b_gen s' h /\
      (shares (b_pc s h) = Some v \/ (1 <= v /\ v <= L s' /\ closed s' v /\ ~ closed s v));
  h_sx : forall y v, shares (b_pc s' y) = Some v -> S1 s' y v -> SX s' h y v }.

Lemma assemble c s s' h : BInv c s -> Frame s s' h -> Hs c s s' h -> BInv c s'.
Proof.
  intros B F H.
  assert (GS : forall y v, shares (b_pc s' y) = Some v -> S1 s' y v).
  { intros y v E. destruct (N.eq_dec y h) as [->|Hy].
    - destruct (h_s1 _ _ _ _ H v E) as (A & [A1|(A1 & A2 & A3 & _)]); [|unfold S1; sps].
      destruct (g_s1 c s B h v A1) as (_ & A2 & A3 & A4). unfold S1. sps.
      + pose proof (f_L _ _ _ F). lia.
      + eapply closed_mono; eauto.
    - destruct (f_pc _ _ _ F y Hy) as (EP & EG & _). rewrite EP in E.
      destruct (g_s1 c s B y v E) as (A1 & A2 & A3 & A4). unfold S1. rewrite EG. sps.
      + destruct (f_disk _ _ _ F y Hy) as [->|(_ & _ & X)]; [exact A1|congruence].
      + pose proof (f_L _ _ _ F). lia.
      + eapply closed_mono; eauto. }
  constructor.
  - apply H.
  - apply H.
  - intros o V g Hin. destruct (h_starts _ _ _ _ H o V g Hin) as [Hin'|(-> & A1 & A2)]; [|auto].
    apply (g_starts c s B) in Hin'. destruct (N.eq_dec o h) as [->|Ho].
    + pose proof (h_last _ _ _ _ H) as (A & _). split; [lia|].
      destruct (f_gen _ _ _ F) as [(G & _)|G]; lia.
    + rewrite (frame_lastl _ _ _ _ F Ho). destruct (f_pc _ _ _ F o Ho) as (_ & -> & _). exact Hin'.
  - intros r Hr. destruct (f_newrecs _ _ _ F r Hr) as [Hr'|(_ & Hr')]; [|auto].
    apply (g_recs c s B) in Hr'. pose proof (f_L _ _ _ F). lia.
  - intros V V1 V2. destruct (N.lt_ge_cases V (L s)) as [A|A].
    + eapply closed_mono; eauto. apply (g_closed c s B); auto.
    + apply (h_closed _ _ _ _ H); auto.
  - apply (f_floor _ _ _ F).
  - intros y. destruct (N.eq_dec y h) as [->|Hy]; [apply (h_last _ _ _ _ H)|].
    rewrite (frame_lastl _ _ _ _ F Hy). pose proof (g_last c s B y). pose proof (f_L _ _ _ F). lia.
  - intros y. destruct (N.eq_dec y h) as [->|Hy]; [apply (h_saved _ _ _ _ H)|].
    destruct (f_a _ _ _ F y Hy) as (_ & _ & ->). pose proof (g_saved c s B y). pose proof (f_L _ _ _ F). lia.
  - intros y. destruct (N.eq_dec y h) as [->|Hy]; [apply (h_disk _ _ _ _ H)|].
    destruct (f_a _ _ _ F y Hy) as (_ & EL & _). rewrite EL.
    destruct (f_disk _ _ _ F y Hy) as [->|(_ & A & _)]; [|auto].
    pose proof (f_floor2 _ _ _ F). destruct (g_disk c s B y); [auto|right; lia].
  - intros y. destruct (N.eq_dec y h) as [->|Hy]; [apply (h_rel _ _ _ _ H)|].
    rewrite (frame_lastl _ _ _ _ F Hy). intros E.
    destruct (f_disk _ _ _ F y Hy) as [E'|(E' & _)]; rewrite E' in E; [|discriminate].
    apply (g_rel c s B) in E. pose proof (f_L _ _ _ F). lia.
  - destruct (h_ldr _ _ _ _ H) as [E|E]; [|exact E]. unfold freeok. rewrite E.
    destruct (g_ldr c s B) as (A1 & A2 & A3). sps.
    + destruct A1 as [A1|A1]; [left; auto|right; eapply recd_mono; eauto].
    + intros X Y. eapply closed_mono; eauto.
  - intros y. destruct (N.eq_dec y h) as [->|Hy]; [apply (h_host _ _ _ _ H)|].
    destruct (f_pc _ _ _ F y Hy) as (-> & -> & _). apply (g_host c s B).
  - intros y. destruct (N.eq_dec y h) as [->|Hy]; [apply (h_pc _ _ _ _ H)|].
    eapply frame_PI; eauto.
  - exact GS.
  - intros x y v E. destruct (N.eq_dec x h) as [->|Hx]; [apply (h_sx _ _ _ _ H); auto|].
    assert (X : SX s x y v).
    { destruct (N.eq_dec y h) as [->|Hy].
      - destruct (h_s1 _ _ _ _ H v E) as (_ & [A|(A1 & A2 & A3 & A4)]).
        + apply (g_sx c s B); auto.
        + eapply noclosed_SX; eauto.
      - destruct (f_pc _ _ _ F y Hy) as (EP & _). rewrite EP in E. apply (g_sx c s B); auto. }
    unfold SX in *. destruct (f_pc _ _ _ F x Hx) as (-> & _ & ->).
    destruct (f_a _ _ _ F x Hx) as (-> & _). exact X.
Qed.

(* ---- steps that leave the leader record, the history and the last blocks alone - *)
Record Quiet (c : cfg) (s s' : bst) (h : N) : Prop := mkQ {
  q_inv : Inv c (b_a s');
  q_v : VInv (b_a s');
  q_last : forall y, s_last (b_a s') y = s_last (b_a s) y;
  q_saved : d_lver (s_saved (b_a s') h) <= L s;
  q_recs : s_recs (b_a s') = s_recs (b_a s);
  q_starts : s_starts (b_a s') = s_starts (b_a s);
  q_floor : s_floor (b_a s') = s_floor (b_a s) \/
            exists V, s_floor (b_a s') = N.max (s_floor (b_a s)) V /\ nobody_at s V;
  q_a : forall y, y <> h -> s_loc (b_a s') y = s_loc (b_a s) y /\ s_saved (b_a s') y = s_saved (b_a s) y;
  q_disk : forall y, y <> h -> blk s' y = blk s y;
  q_ldr : b_ldr s' = b_ldr s;
  q_gen : b_gen s' = b_gen s;
  q_pc : forall y, y <> h -> b_pc s' y = b_pc s y /\ b_shb s' y = b_shb s y }.

Lemma quiet_floor c s s' h : BInv c s -> Quiet c s s' h ->
  s_floor (b_a s) <= s_floor (b_a s') /\ s_floor (b_a s') <= L s /\
  forall y cur, curof (b_pc s y) = Some cur -> s_floor (b_a s') <= l_lver cur.
Proof.
  intros B Q.
  assert (FC : forall y cur, curof (b_pc s y) = Some cur -> s_floor (b_a s) <= l_lver cur).
  { intros y cur E. pose proof (g_pc c s B y) as P.
    destruct (b_pc s y); cbn in E; try discriminate; injection E as ->; cbn in P.
    - destruct P as (_ & (_ & P & _) & _); exact P.
    - destruct P as (_ & (_ & P & _) & _); exact P.
    - destruct P as ((_ & P & _) & _); exact P.
    - destruct P as ((_ & P & _) & _); exact P. }
  pose proof (g_floor c s B).
  destruct (q_floor _ _ _ _ Q) as [->|(V & -> & N1 & N2)]; sps; try lia.
  intros y cur E. specialize (FC y cur E). specialize (N2 y cur E). lia.
Qed.

Lemma quiet_frame c s s' h : BInv c s -> Quiet c s s' h ->
  (verof (b_pc s' h) = verof (b_pc s h) \/ verof (b_pc s' h) = None \/
   verof (b_pc s' h) = Some (L s + 1)) -> Frame s s' h.
Proof.
  intros B Q VF. destruct (quiet_floor _ _ _ _ B Q) as (F1 & F2 & F3).
  constructor.
  - rewrite (q_ldr _ _ _ _ Q). lia.
  - rewrite (q_ldr _ _ _ _ Q). split; [exact F2|]. intros y cur _. apply F3.
  - exact F1.
  - intros y Hy. rewrite (q_gen _ _ _ _ Q). destruct (q_pc _ _ _ _ Q y Hy). auto.
  - intros y Hy. rewrite (q_last _ _ _ _ Q). destruct (q_a _ _ _ _ Q y Hy). auto.
  - intros y Hy. left. apply (q_disk _ _ _ _ Q y Hy).
  - rewrite (q_recs _ _ _ _ Q). auto.
  - rewrite (q_recs _ _ _ _ Q). auto.
  - left. apply (q_ldr _ _ _ _ Q).
  - left. rewrite (q_gen _ _ _ _ Q). auto.
Qed.

Lemma quiet_step c s s' h : BInv c s -> Quiet c s s' h ->
  (verof (b_pc s' h) = verof (b_pc s h) \/ verof (b_pc s' h) = None \/
   verof (b_pc s' h) = Some (L s + 1)) ->
  (d_mbal (blk s' h) = d_mbal (s_last (b_a s) h) \/ lastl s h <= s_floor (b_a s')) ->
  (d_rel (blk s' h) = true -> lastl s h <= L s) ->
  (b_pc s h <> Out \/ b_pc s' h = Out) ->
  (Frame s s' h -> PI c s' h (b_pc s' h)) ->
  (forall v, shares (b_pc s' h) = Some v ->
      d_sh (blk s' h) = b_gen s h /\
      (shares (b_pc s h) = Some v \/
       (1 <= v /\ v <= L s /\ closed s' v /\ ~ closed s v /\ forall y w, SX s' h y w))) ->
  (forall y v, shares (b_pc s y) = Some v -> shares (b_pc s' y) = Some v -> SX s h y v -> S1 s' y v -> 1 <= y -> y <= c_hosts c ->
               1 <= b_gen s y -> SX s' h y v) ->
  BInv c s'.
Proof.
  intros B Q VF HD HR HO HP HS HX. pose proof (quiet_frame _ _ _ _ B Q VF) as F.
  apply (assemble c s s' h B F). constructor.
  - apply Q.
  - apply Q.
  - rewrite (q_last _ _ _ _ Q), (q_ldr _ _ _ _ Q). pose proof (g_last c s B h). lia.
  - rewrite (q_ldr _ _ _ _ Q). apply Q.
  - intros o V g. rewrite (q_starts _ _ _ _ Q). auto.
  - intros V _ A1 A2. rewrite (q_ldr _ _ _ _ Q) in A2. lia.
  - rewrite (q_last _ _ _ _ Q). exact HD.
  - rewrite (q_last _ _ _ _ Q), (q_ldr _ _ _ _ Q). exact HR.
  - left. apply Q.
  - intros A. rewrite (q_gen _ _ _ _ Q). destruct HO as [HO|HO]; [|contradiction].
    apply (g_host c s B h HO).
  - auto.
  - intros v E. destruct (HS v E) as (A1 & A2). rewrite (q_gen _ _ _ _ Q), (q_ldr _ _ _ _ Q).
    split; [exact A1|]. destruct A2 as [A2|(A2 & A3 & A4 & A5 & _)]; auto 10.
  - intros y v E S. destruct (N.eq_dec y h) as [->|Hy].
    + destruct (HS v E) as (_ & [A|(_ & _ & _ & _ & A)]); [|apply A].
      assert (HO' : b_pc s h <> Out) by (intros X; rewrite X in A; discriminate).
      destruct (g_host c s B h HO') as (X1 & X2 & X3).
      apply HX; auto. apply (g_sx c s B); auto.
    + destruct (q_pc _ _ _ _ Q y Hy) as (EP & _). pose proof E as E0. rewrite EP in E.
      assert (HO' : b_pc s y <> Out) by (intros X; rewrite X in E; discriminate).
      destruct (g_host c s B y HO') as (X1 & X2 & X3).
      apply HX; auto. apply (g_sx c s B); auto.
Qed.

(* only the place of one host (and its shared bits) changes *)
Lemma quiet_pc c s s' h : BInv c s -> b_a s' = b_a s -> b_ldr s' = b_ldr s -> b_gen s' = b_gen s ->
  (forall y, y <> h -> b_pc s' y = b_pc s y /\ b_shb s' y = b_shb s y) -> Quiet c s s' h.
Proof.
  intros B EA EL EG EP. constructor; rewrite ?EA; auto; try apply B.
  intros y _. unfold blk. now rewrite EA.
Qed.

Lemma pc_step c s s' h : BInv c s -> b_a s' = b_a s -> b_ldr s' = b_ldr s -> b_gen s' = b_gen s ->
  (forall y, y <> h -> b_pc s' y = b_pc s y /\ b_shb s' y = b_shb s y) ->
  (verof (b_pc s' h) = verof (b_pc s h) \/ verof (b_pc s' h) = None \/
   verof (b_pc s' h) = Some (L s + 1)) ->
  b_pc s h <> Out ->
  (Frame s s' h -> PI c s' h (b_pc s' h)) ->
  (forall v, shares (b_pc s' h) = Some v -> shares (b_pc s h) = Some v) ->
  (forall y v, shares (b_pc s y) = Some v -> shares (b_pc s' y) = Some v -> SX s h y v -> S1 s' y v -> 1 <= y -> y <= c_hosts c ->
               1 <= b_gen s y -> SX s' h y v) ->
  BInv c s'.
Proof.
  intros B EA EL EG EP VF HO HP HS HX.
  assert (EB : forall y, blk s' y = blk s y) by (intros; unfold blk; now rewrite EA).
  apply (quiet_step c s s' h B); auto.
  - apply quiet_pc; auto.
  - rewrite EB, EA. apply (g_disk c s B).
  - rewrite EB. apply (g_rel c s B).
  - intros v E. specialize (HS v E). rewrite EB. split; [|auto]. apply (g_s1 c s B h v HS).
Qed.

Lemma binv_init c : BInv c binit.
Proof.
  assert (NR : forall V o g, recd binit V o g -> False) by (intros V o g (r & [] & _)).
  constructor.
  - apply inv_init.
  - apply vinv_init.
  - intros o V g [].
  - intros r [].
  - intros V A1 A2. cbn in A2. lia.
  - cbn. lia.
  - intros h. cbn. lia.
  - intros h. cbn. lia.
  - intros h. left. reflexivity.
  - intros h X. discriminate.
  - cbn. split; [left; split; reflexivity|]. split; [|lia]. intros _ X. cbn in X. lia.
  - intros h X. cbn in X. congruence.
  - intros h. reflexivity.
  - intros h v X. discriminate.
  - intros x y v X. discriminate.
Qed.

Lemma binv_join c s h s' : BInv c s -> bstep c s (BJoin h) = Some s' -> BInv c s'.
Proof.
  intros B H. cbn [bstep] in H. destruct (b_pc s h) eqn:EP; try discriminate.
  match type of H with (if ?b then _ else _) = _ => destruct b eqn:E end; [|discriminate].
  injection H as <-. apply andb_prop in E. destruct E as [E1 E2].
  set (s' := mkB _ _ _ _ _).
  assert (PCN : forall y, y <> h -> b_pc s' y = b_pc s y) by (intros; cbn; apply upd_neq; auto).
  assert (PCH : b_pc s' h = Ready) by (cbn; apply upd_eq).
  assert (GEH : b_gen s' h = b_gen s h + 1) by (cbn; apply upd_eq).
  assert (F : Frame s s' h).
  { constructor.
    - cbn; lia.
    - cbn. split; [apply (g_floor c s B)|]. intros y cur _ E.
      destruct (quiet_floor c s s y B (quiet_pc c s s y B eq_refl eq_refl eq_refl (fun y _ => conj eq_refl eq_refl)))
        as (_ & _ & X). apply (X y cur E).
    - cbn; lia.
    - intros y Hy. rewrite PCN by auto. cbn. rewrite upd_neq by auto. auto.
    - auto.
    - auto.
    - auto.
    - auto.
    - auto.
    - right. rewrite GEH. lia. }
  apply (assemble c s s' h B F). constructor.
  - apply B.
  - apply B.
  - cbn. pose proof (g_last c s B h). lia.
  - apply (g_saved c s B).
  - auto.
  - cbn. lia.
  - apply (g_disk c s B).
  - apply (g_rel c s B).
  - auto.
  - intros _. rewrite GEH. lia.
  - rewrite PCH. pose proof (g_pc c s B h) as P. rewrite EP in P. exact P.
  - rewrite PCH. discriminate.
  - intros y v _ _. unfold SX. rewrite PCH. exact Logic.I.
Qed.

Lemma step_inv2 c s a s' : Inv c s -> VInv s -> disciplined s a -> step c s a = Some s' -> Inv c s' /\ VInv s'.
Proof. intros. split; [eapply inv_step; eauto|eapply vinv_step; eauto]. Qed.

(* a host gives up its ballot *)
Lemma binv_abort c s h p : BInv c s -> b_pc s h <> Out -> verof p = None ->
  (match p with Out | Ready | Acq _ | HoldSh _ | FailSh | Erase _ | Rel RFree _ | Rel (RBack _) _ => True | _ => False end) ->
  (forall v, shares p = Some v -> shares (b_pc s h) = Some v) ->
  BInv c (set_a_pc s (set_loc (b_a s) h Idle) h p).
Proof.
  intros B HO HV HP HS.
  destruct (step_inv2 c (b_a s) (AAbort h) (set_loc (b_a s) h Idle)) as (I1 & I2);
    [apply B|apply B|exact Logic.I|reflexivity|].
  set (s' := set_a_pc _ _ _ _).
  assert (PCH : b_pc s' h = p) by (cbn; apply upd_eq).
  apply (quiet_step c s s' h B); rewrite ?PCH; auto.
  - constructor; cbn; auto.
    + apply (g_saved c s B).
    + intros y Hy. rewrite upd_neq by auto. auto.
    + intros y Hy. rewrite upd_neq by auto. auto.
  - apply (g_disk c s B).
  - apply (g_rel c s B).
  - intros _. destruct p as [| |m|m cur mx|m cur mbal copy a|m cur mbal a|m cur|m a lead|m lead todo live er
      |lead|[ |v|v|v] lead|k l|v'| |lead]; try contradiction; cbn; apply upd_eq.
  - intros v E. specialize (HS v E). split; [|auto]. apply (g_s1 c s B h v HS).
  - intros y v _ _ _ _ _ _ _. unfold SX. rewrite PCH. destruct p; try exact Logic.I; contradiction.
Qed.
