(* run_ballot (RunBallot.v, the sequential function) is a run of one host in Ballot.v (the
   steps on shared disks): every execution of the function, interleaved with anything the
   other hosts do, is an execution of Ballot.v that ends in a decision exactly when the
   function returns 0. *)
From Coq Require Import List NArith ZArith Lia Bool Arith ZifyBool ZifyN ZifyNat.
From Verif Require Import Codec Leader Acquire DeltaRenew Majority Ballot RunBallot.
Import ListNotations.
Open Scope N_scope.

(* ---- what one host does, seen from that host: v is the block a read delivers ---- *)
Definition lstep (c : cfg) (h : N) (g : N) (l : loc) (a : act) (v : dblk) : option (N * loc) :=
  match a with
  | AStart _ lver mbal gen =>
      if idle l && (1 <=? h) && (h <=? c_hosts c) && (c_hosts c <=? c_max c)
         && (mbal mod c_max c =? h mod c_max c) && (1 <=? mbal) && (1 <=? lver)
      then Some (gen, Wr P1 (phase1_blk lver mbal) []) else None
  | AWrite _ d ok sh =>
      match l with
      | Wr p x w => if (d <? c_disks c)%nat then Some (g, if ok then Wr p x (d :: w) else l) else None
      | _ => None
      end
  | AWdone _ =>
      match l with
      | Wr p x w => if maj c (inw w) then Some (g, Rd p x w []) else None
      | _ => None
      end
  | ARead _ d q =>
      match l with
      | Rd p x w seen => if (d <? c_disks c)%nat then Some (g, Rd p x w (seen ++ [(d, q, v)])) else None
      | _ => None
      end
  | ARdone _ now =>
      match l with
      | Rd P1 x w seen =>
          if maj c (read_full c seen) && (1 <=? now) then
            match scan1 (d_lver x) (d_mbal x) (map snd seen) zero_blk with
            | ScanGo mx => Some (g, Wr P2 (phase2_blk x mx h g now) [])
            | _ => Some (g, Idle)
            end
          else None
      | Rd P2 x w seen =>
          if maj c (read_full c seen) then
            match scan2 (d_lver x) (d_mbal x) (map snd seen) with
            | ScanGo _ => Some (g, Dec x w)
            | _ => Some (g, Idle)
            end
          else None
      | _ => None
      end
  | AAbort _ => Some (g, Idle)
  | _ => None
  end.

Fixpoint lrun (c : cfg) (h : N) (g : N) (l : loc) (acts : list (act * dblk)) : option (N * loc) :=
  match acts with
  | [] => Some (g, l)
  | (a, v) :: r =>
      match lstep c h g l a v with
      | Some (g', l') => lrun c h g' l' r
      | None => None
      end
  end.

Lemma lrun_app c h g l a b :
  lrun c h g l (a ++ b) = match lrun c h g l a with Some (g', l') => lrun c h g' l' b | None => None end.
Proof.
  revert g l. induction a as [|[x v] a IH]; intros g l; cbn; auto.
  destruct (lstep c h g l x v) as [[g' l']|]; auto.
Qed.

(* whose step it is; None: a step on the block of a host that the host does not take *)
Definition actor (a : act) : option N :=
  match a with
  | AStart h _ _ _ | AWrite h _ _ _ | AWdone h | ARead h _ _ | ARdone h _ | ARec h | AAbort h
  | ASave h | AReset h | ARelw h _ _ _ => Some h
  | AZero _ _ => None
  end.

Lemma upd_at {A} (f : N -> A) k v : upd f k v k = v.
Proof. unfold upd. now rewrite N.eqb_refl. Qed.
Lemma upd_ne {A} (f : N -> A) k v q : q <> k -> upd f k v q = f q.
Proof. unfold upd. destruct (N.eqb_spec q k); congruence. Qed.

Lemma other_step c s a s' h :
  actor a <> Some h -> step c s a = Some s' -> s_loc s' h = s_loc s h /\ s_gen s' h = s_gen s h.
Proof.
  intros N E. destruct a; cbn [actor step] in *;
    repeat match type of E with
      | context [match ?x with _ => _ end] => destruct x eqn:?; try discriminate E
      end;
    try (injection E as <-); cbn; try rewrite !upd_ne by congruence; auto.
Qed.

(* the local step is the step of Ballot.v *)
Lemma own_step c s a v s' h g l :
  actor a = Some h -> (forall d q, a = ARead h d q -> v = s_disk s d q) ->
  lstep c h (s_gen s h) (s_loc s h) a v = Some (g, l) ->
  step c s a = Some s' -> s_loc s' h = l /\ s_gen s' h = g.
Proof.
  intros A V L E. destruct a; cbn [actor step lstep] in *; try discriminate A; injection A as ->; try discriminate L.
  - destruct (_ && _) in E; [|discriminate]. destruct (_ && _) in L; [|discriminate].
    injection E as <-. injection L as <- <-. cbn. now rewrite !upd_at.
  - destruct (s_loc s h) eqn:P; try discriminate. destruct (_ <? _)%nat; [|discriminate].
    injection E as <-. injection L as <- <-. destruct ok; cbn; [now rewrite upd_at|auto].
  - destruct (s_loc s h) eqn:P; try discriminate. destruct (maj _ _); [|discriminate].
    injection E as <-. injection L as <- <-. cbn. now rewrite upd_at.
  - destruct (s_loc s h) eqn:P; try discriminate. destruct (_ <? _)%nat; [|discriminate].
    injection E as <-. injection L as <- <-. cbn. rewrite upd_at. split; auto.
    now rewrite (V d q eq_refl).
  - destruct (s_loc s h) as [| |[] x w seen|] eqn:P; try discriminate.
    + destruct (_ && _); [|discriminate].
      destruct (scan1 _ _ _ _); injection E as <-; injection L as <- <-; cbn; now rewrite upd_at.
    + destruct (maj _ _); [|discriminate].
      destruct (scan2 _ _ _); injection E as <-; injection L as <- <-; cbn; now rewrite upd_at.
  - injection E as <-. injection L as <- <-. cbn. now rewrite upd_at.
Qed.

Lemma own_enabled c s a v h g l :
  actor a = Some h -> lstep c h (s_gen s h) (s_loc s h) a v = Some (g, l) -> exists s', step c s a = Some s'.
Proof.
  intros A L. destruct a; cbn [actor step lstep] in *; try discriminate A; injection A as ->; try discriminate L.
  - match type of L with context [if ?b then _ else _] => destruct b end; [|discriminate]. eauto.
  - destruct (s_loc s h) eqn:P; try discriminate. destruct (_ <? _)%nat; [|discriminate]. eauto.
  - destruct (s_loc s h) eqn:P; try discriminate. destruct (maj _ _); [|discriminate]. eauto.
  - destruct (s_loc s h) eqn:P; try discriminate. destruct (_ <? _)%nat; [|discriminate]. eauto.
  - destruct (s_loc s h) as [| |[] x w seen|] eqn:P; try discriminate.
    + destruct (_ && _); [|discriminate]. destruct (scan1 _ _ _ _); eauto.
    + destruct (maj _ _); [|discriminate]. destruct (scan2 _ _ _); eauto.
  - eauto.
Qed.

(* an execution in which host h takes the steps of acts, in this order, the reads deliver
   the given blocks, and the others do anything in between *)
Inductive mix (c : cfg) (h : N) : st -> list (act * dblk) -> st -> Prop :=
| mix_nil s : mix c h s [] s
| mix_other s a s1 l s' :
    actor a <> Some h -> step c s a = Some s1 -> mix c h s1 l s' -> mix c h s l s'
| mix_own s a v s1 l s' :
    actor a = Some h -> (forall d q, a = ARead h d q -> v = s_disk s d q) ->
    step c s a = Some s1 -> mix c h s1 l s' -> mix c h s ((a, v) :: l) s'.

Lemma mix_lrun c h s acts s' g l :
  mix c h s acts s' -> lrun c h (s_gen s h) (s_loc s h) acts = Some (g, l) ->
  s_loc s' h = l /\ s_gen s' h = g.
Proof.
  induction 1 as [s|s a s1 acts s' A E M IH|s a v s1 acts s' A V E M IH]; intros L.
  - cbn in L. injection L as <- <-. auto.
  - destruct (other_step _ _ _ _ _ A E) as [P Q]. apply IH. now rewrite P, Q.
  - cbn in L. destruct (lstep c h (s_gen s h) (s_loc s h) a v) as [[g1 l1]|] eqn:S; [|discriminate].
    destruct (own_step _ _ _ _ _ _ _ _ A V S E) as [P Q]. apply IH. now rewrite P, Q.
Qed.

(* ---- the steps of run_ballot.  hit j: a write to disk j that failed has reached the
   disk nevertheless; sh: the mode block that is written along (T_WRITE_DBLOCK_MBLOCK_SH) ---- *)
Fixpoint wacts (h sh : N) (hit : nat -> bool) (j : nat) (ws : list Z) : list (act * dblk) :=
  match ws with
  | [] => []
  | rv :: r =>
      (if (0 <=? rv)%Z then [(AWrite h j true sh, zero_blk)]
       else if hit j then [(AWrite h j false sh, zero_blk)] else [])
      ++ wacts h sh hit (S j) r
  end.

Fixpoint dacts (h : N) (j : nat) (q : nat) (bks : list (bool * dblk)) : list (act * dblk) :=
  match bks with
  | [] => []
  | (_, b) :: r => (ARead h j (N.of_nat q), b) :: dacts h j (S q) r
  end.

Fixpoint racts (h : N) (j : nat) (l : list (bool * list (bool * dblk))) : list (act * dblk) :=
  match l with
  | [] => []
  | (use, bks) :: r => (if use then dacts h j 1 bks else []) ++ racts h (S j) r
  end.

Definition used1 (i : bin) : list (bool * list (bool * dblk)) :=
  map (fun x => ((0 <=? fst x)%Z, snd x)) (b_r1 i).
Definition used2 (i : bin) : list (bool * list (bool * dblk)) :=
  map (fun x => (negb (fst (fst x) =? SANLK_AIO_TIMEOUT)%Z && (0 <=? fst (snd x))%Z, snd (snd x)))
      (combine (b_r1 i) (b_r2 i)).

Definition own (a : act) : act * dblk := (a, zero_blk).

(* the reads of a phase that aborts are left out: they change nothing *)
Definition ballot_acts (n : nat) (h gen sh lver mbal : N) (hit1 hit2 : nat -> bool) (i : bin) : list (act * dblk) :=
  if negb (alloc_all (b_alloc i) =? 0)%Z then []
  else
  own (AStart h lver mbal gen) :: wacts h sh hit1 0 (b_w1 i) ++
  if negb (majn n (num_ok (b_w1 i))) then [own (AAbort h)]
  else own (AWdone h) ::
    match disks1 lver mbal (b_r1 i) 0 zero_blk with
    | RAbort _ => [own (AAbort h)]
    | RGo k1 _ =>
        if negb (majn n k1) then [own (AAbort h)]
        else racts h 0 (used1 i) ++ own (ARdone h (b_now i)) :: wacts h sh hit2 0 (b_w2 i) ++
          if negb (majn n (num_ok (b_w2 i))) then [own (AAbort h)]
          else own (AWdone h) ::
            match disks2 lver mbal (bufs_after (b_r1 i)) (b_r2 i) 0 with
            | RAbort _ => [own (AAbort h)]
            | RGo k2 _ =>
                if negb (majn n k2) then [own (AAbort h)]
                else racts h 0 (used2 i) ++ [own (ARdone h (b_now i))]
            end
    end.

(* ---- writing ---- *)
Fixpoint okidx (j : nat) (ws : list Z) (w : list nat) : list nat :=
  match ws with
  | [] => w
  | rv :: r => okidx (S j) r (if (0 <=? rv)%Z then j :: w else w)
  end.

Lemma wacts_run c h g sh hit p x ws j w :
  (j + length ws <= c_disks c)%nat ->
  lrun c h g (Wr p x w) (wacts h sh hit j ws) = Some (g, Wr p x (okidx j ws w)).
Proof.
  revert j w. induction ws as [|rv ws IH]; intros j w L; cbn [wacts okidx]; auto.
  cbn [length] in L. rewrite lrun_app.
  destruct (0 <=? rv)%Z; [|destruct (hit j)]; cbn [lrun lstep].
  - destruct (Nat.ltb_spec j (c_disks c)); [|lia]. apply IH. lia.
  - destruct (Nat.ltb_spec j (c_disks c)); [|lia]. apply IH. lia.
  - apply IH. lia.
Qed.

Lemma okidx_in ws j w d :
  inw (okidx j ws w) d = inw w d || ((j <=? d)%nat && (d <? j + length ws)%nat && (0 <=? nth (d - j) ws (-1))%Z).
Proof.
  revert j w. induction ws as [|rv ws IH]; intros j w; cbn [okidx length].
  - destruct (Nat.leb_spec j d), (Nat.ltb_spec d (j + 0)); cbn; try lia; now rewrite ?orb_false_r.
  - rewrite IH. destruct (Nat.eq_dec d j) as [->|N].
    + rewrite Nat.sub_diag. cbn [nth].
      destruct (Nat.leb_spec (S j) j), (Nat.leb_spec j j), (Nat.ltb_spec j (j + S (length ws))); try lia.
      cbn [andb]. rewrite orb_false_r. destruct (0 <=? rv)%Z.
      * unfold inw at 1. cbn [existsb]. rewrite Nat.eqb_refl. now rewrite orb_true_r.
      * now rewrite orb_false_r.
    + assert (X : inw (if (0 <=? rv)%Z then j :: w else w) d = inw w d).
      { destruct (0 <=? rv)%Z; auto. unfold inw. cbn [existsb]. destruct (Nat.eqb_spec d j); [lia|auto]. }
      rewrite X. f_equal.
      destruct (Nat.leb_spec (S j) d), (Nat.leb_spec j d); try lia; cbn [andb]; auto.
      replace (d - j)%nat with (S (d - S j)) by lia. cbn [nth].
      destruct (Nat.ltb_spec d (S j + length ws)), (Nat.ltb_spec d (j + S (length ws))); try lia; auto.
Qed.

Lemma filter_ext_in_seq (f g : nat -> bool) n :
  (forall d, (d < n)%nat -> f d = g d) -> count n f = count n g.
Proof.
  intros H. unfold count. f_equal. apply filter_ext_in. intros d I. apply in_seq in I. apply H. lia.
Qed.

Lemma count_nth {A} (f : A -> bool) (l : list A) x :
  count (length l) (fun d => f (nth d l x)) = length (filter f l).
Proof.
  unfold count. induction l as [|a l IH]; auto. cbn [length seq filter nth].
  rewrite <- seq_shift.
  assert (E : forall m, length (filter (fun d => f (nth d (a :: l) x)) (map S m)) =
                        length (filter (fun d => f (nth d l x)) m)).
  { induction m as [|k m IHm]; auto. cbn [map filter nth]. destruct (f (nth k l x)); cbn; auto. }
  destruct (f a); cbn [length]; rewrite E, IH; auto.
Qed.

Lemma writes_maj c n ws :
  c_disks c = n -> length ws = n -> maj c (inw (okidx 0 ws [])) = majn n (num_ok ws).
Proof.
  intros D L. unfold maj, majn. rewrite D. do 2 f_equal. unfold num_ok.
  rewrite <- (count_nth _ ws (-1)%Z), L. apply filter_ext_in_seq. intros d LT.
  rewrite okidx_in. cbn [inw existsb orb Nat.leb andb Nat.add]. rewrite Nat.sub_0_r.
  destruct (Nat.ltb_spec d (length ws)); [auto|lia].
Qed.

(* ---- reading ---- *)
Fixpoint dseen (j q : nat) (bks : list (bool * dblk)) : list (nat * N * dblk) :=
  match bks with
  | [] => []
  | (_, b) :: r => (j, N.of_nat q, b) :: dseen j (S q) r
  end.
Fixpoint rseen (j : nat) (l : list (bool * list (bool * dblk))) : list (nat * N * dblk) :=
  match l with
  | [] => []
  | (use, bks) :: r => (if use then dseen j 1 bks else []) ++ rseen (S j) r
  end.

Lemma dacts_run c h g p x w j q bks seen :
  (j < c_disks c)%nat ->
  lrun c h g (Rd p x w seen) (dacts h j q bks) = Some (g, Rd p x w (seen ++ dseen j q bks)).
Proof.
  intros L. revert q seen. induction bks as [|[ok b] bks IH]; intros q seen; cbn [dacts dseen].
  - cbn. now rewrite app_nil_r.
  - cbn [lrun lstep]. destruct (Nat.ltb_spec j (c_disks c)); [|lia]. rewrite IH, <- app_assoc. reflexivity.
Qed.

Lemma racts_run c h g p x w j l seen :
  (j + length l <= c_disks c)%nat ->
  lrun c h g (Rd p x w seen) (racts h j l) = Some (g, Rd p x w (seen ++ rseen j l)).
Proof.
  revert j seen. induction l as [|[use bks] l IH]; intros j seen L; cbn [racts rseen].
  - cbn. now rewrite app_nil_r.
  - cbn [length] in L. rewrite lrun_app. destruct use.
    + rewrite dacts_run by lia. rewrite IH by lia. now rewrite app_assoc.
    + cbn [lrun app]. apply IH. lia.
Qed.

Definition hit_by (d : nat) (q : N) (e : nat * N * dblk) : bool := (fst (fst e) =? d)%nat && (snd (fst e) =? q).

Lemma dseen_hit j k bks d q :
  existsb (hit_by d q) (dseen j k bks) =
  (j =? d)%nat && (N.of_nat k <=? q) && (q <? N.of_nat (k + length bks)).
Proof.
  revert k. induction bks as [|[ok b] bks IH]; intros k; cbn [dseen existsb length].
  - rewrite Nat.add_0_r. lia.
  - rewrite IH. unfold hit_by at 1. cbn [fst snd]. lia.
Qed.

Lemma rseen_hit nh j l d q :
  Forall (fun x => fst x = true -> length (snd x) = nh) l ->
  1 <= q <= N.of_nat nh -> (j <= d)%nat ->
  existsb (hit_by d q) (rseen j l) = fst (nth (d - j) l (false, [])).
Proof.
  intros F Q. revert j. induction l as [|[use bks] l IH]; intros j L; cbn [rseen].
  - destruct (d - j)%nat; reflexivity.
  - inversion F as [|? ? Fx Fl]; subst. cbn [fst snd] in Fx. rewrite existsb_app.
    destruct (Nat.eq_dec d j) as [->|N].
    + rewrite Nat.sub_diag. cbn [nth fst].
      assert (Z : forall k l', (j < k)%nat -> existsb (hit_by j q) (rseen k l') = false).
      { clear. intros k l'. revert k. induction l' as [|[u b] l' IHl]; intros k L; cbn [rseen]; auto.
        rewrite existsb_app, IHl by lia. destruct u; cbn [existsb]; auto. rewrite dseen_hit.
        destruct (Nat.eqb_spec k j); [lia|reflexivity]. }
      rewrite Z by lia. destruct use; cbn [existsb]; auto. rewrite dseen_hit, Fx by auto. lia.
    + rewrite (IH Fl (S j)) by lia. replace (d - j)%nat with (S (d - S j)) by lia. cbn [nth].
      destruct use; cbn [existsb]; auto. rewrite dseen_hit. destruct (Nat.eqb_spec j d); [lia|reflexivity].
Qed.

Lemma reads_maj c n l :
  c_disks c = n -> length l = n -> 1 <= c_hosts c ->
  Forall (fun x => fst x = true -> length (snd x) = N.to_nat (c_hosts c)) l ->
  maj c (read_full c (rseen 0 l)) = majn n (length (filter fst l)).
Proof.
  intros D L H F. unfold maj, majn. rewrite D. do 2 f_equal.
  rewrite <- (count_nth fst l (false, [])), L. apply filter_ext_in_seq. intros d LT.
  unfold read_full. change (fun q => existsb (fun e => (fst (fst e) =? d)%nat && (snd (fst e) =? q)) (rseen 0 l))
    with (fun q => existsb (hit_by d q) (rseen 0 l)).
  assert (E : forall q, In q (hosts c) -> existsb (hit_by d q) (rseen 0 l) = fst (nth d l (false, []))).
  { intros q I. unfold hosts in I. apply in_map_iff in I as (m & <- & I). apply in_seq in I.
    rewrite (rseen_hit (N.to_nat (c_hosts c))); auto; try lia. now rewrite Nat.sub_0_r. }
  destruct (fst (nth d l (false, []))) eqn:X.
  - apply forallb_forall. intros q I. now apply E.
  - destruct (forallb _ (hosts c)) eqn:Y; auto.
    rewrite forallb_forall in Y. specialize (E 1). specialize (Y 1).
    assert (I1 : In 1 (hosts c)).
    { unfold hosts. apply in_map_iff. exists 1%nat. split; auto. apply in_seq. lia. }
    specialize (Y I1). cbn beta in Y. rewrite (E I1) in Y. discriminate.
Qed.

(* ---- looking at the blocks ---- *)
Lemma scan1_app lver mbal a b mx :
  scan1 lver mbal (a ++ b) mx =
  match scan1 lver mbal a mx with ScanGo mx' => scan1 lver mbal b mx' | e => e end.
Proof.
  revert mx. induction a as [|x a IH]; intros mx; cbn; auto.
  destruct (d_lver x <? lver); auto. destruct (lver <? d_lver x); auto. destruct (mbal <? d_mbal x); auto.
  destruct (d_inp x =? 0); auto. destruct (d_bal x =? 0); auto. destruct (d_bal mx <? d_bal x); auto.
Qed.

Lemma scan2_app lver mbal a b :
  scan2 lver mbal (a ++ b) =
  match scan2 lver mbal a with ScanGo _ => scan2 lver mbal b | e => e end.
Proof.
  induction a as [|x a IH]; cbn; auto.
  destruct (d_lver x <? lver); auto. destruct (lver <? d_lver x); auto. destruct (mbal <? d_mbal x); auto.
Qed.

Definition all_good (bks : list (bool * dblk)) : Prop := Forall (fun x => fst x = true) bks.

Lemma blocks1_scan lver mbal j q bks mx :
  all_good bks -> scan1 lver mbal (map snd (dseen j q bks)) mx = blocks1 lver mbal bks mx.
Proof.
  intros G. revert q mx. induction G as [|[g b] bks E G IH]; intros q mx; cbn; auto.
  cbn in E. subst g. cbn [negb]. rewrite !IH. reflexivity.
Qed.

Lemma blocks2_scan lver mbal j q bks :
  all_good bks -> scan2 lver mbal (map snd (dseen j q bks)) = blocks2 lver mbal bks.
Proof.
  intros G. revert q. induction G as [|[g b] bks E G IH]; intros q; cbn; auto.
  cbn in E. subst g. cbn [negb]. now rewrite IH.
Qed.

Lemma disks1_scan lver mbal l j k k' mx mx' :
  Forall (fun x => all_good (snd x)) l ->
  disks1 lver mbal l k mx = RGo k' mx' ->
  scan1 lver mbal (map snd (rseen j (map (fun x => ((0 <=? fst x)%Z, snd x)) l))) mx = ScanGo mx' /\
  k' = (k + length (filter fst (map (fun x => ((0 <=? fst x)%Z, snd x)) l)))%nat.
Proof.
  intros F. revert j k mx. induction F as [|[rv bks] l G F IH]; intros j k mx; cbn [disks1 map rseen filter fst snd].
  - intros [= <- <-]. cbn. split; auto.
  - destruct (Z.ltb_spec rv 0); destruct (Z.leb_spec 0 rv); try lia.
    + intros E. cbn [app]. eapply IH; eauto.
    + cbn [snd] in G. destruct (blocks1 lver mbal bks mx) as [| |m1] eqn:B; try discriminate. intros E.
      rewrite map_app, scan1_app, (blocks1_scan _ _ _ _ _ _ G), B. cbn [length].
      destruct (IH (S j) _ _ E) as [A ->]. split; [exact A|lia].
Qed.

Lemma disks2_scan lver mbal l1 l2 j k k' z :
  Forall (fun x => all_good (snd x)) l2 ->
  disks2 lver mbal (bufs_after l1) l2 k = RGo k' z ->
  let u := map (fun x => (negb (fst (fst x) =? SANLK_AIO_TIMEOUT)%Z && (0 <=? fst (snd x))%Z, snd (snd x)))
               (combine l1 l2) in
  (exists z', scan2 lver mbal (map snd (rseen j u)) = ScanGo z') /\ k' = (k + length (filter fst u))%nat.
Proof.
  intros F. revert l1 j k. induction F as [|[rv bks] l2 G F IH]; intros l1 j k.
  - destruct l1; cbn; (intros [= <- <-]; split; [eauto|lia]).
  - destruct l1 as [|[rv1 bk1] l1].
    { cbn [bufs_after map disks2 combine fst snd rseen filter]. intros [= <- <-]. cbn. split; [eauto|lia]. }
    cbn [bufs_after map disks2 combine fst snd rseen filter]; fold (bufs_after l1).
    destruct (rv1 =? SANLK_AIO_TIMEOUT)%Z; cbn [negb andb].
    { intros E. cbn [app]. apply (IH l1 (S j) _ E). }
    destruct (Z.ltb_spec rv 0); destruct (Z.leb_spec 0 rv); try lia.
    { intros E. cbn [app]. apply (IH l1 (S j) _ E). }
    cbn [snd] in G. destruct (blocks2 lver mbal bks) eqn:B; try discriminate. intros E.
    rewrite map_app, scan2_app, (blocks2_scan _ _ _ _ _ G), B. cbn [length].
    destruct (IH l1 (S j) _ E) as [A ->]. split; [exact A|lia].
Qed.

(* ---- the whole function ---- *)
Definition may_start (c : cfg) (h lver mbal : N) : Prop :=
  1 <= h <= c_hosts c /\ c_hosts c <= c_max c /\ mbal mod c_max c = h mod c_max c /\ 1 <= mbal /\ 1 <= lver.

Lemma ballot_run c n h gen sh lver mbal hit1 hit2 i db rv x rt g0 :
  c_disks c = n -> may_start c h lver mbal -> 1 <= b_now i ->
  fits n (N.to_nat (c_hosts c)) i ->
  Forall (fun x => all_good (snd x)) (b_r1 i) -> Forall (fun x => all_good (snd x)) (b_r2 i) ->
  alloc_all (b_alloc i) = 0%Z ->
  run_ballot n h gen lver mbal i db = (rv, x, rt) ->
  lrun c h g0 Idle (ballot_acts n h gen sh lver mbal hit1 hit2 i) =
  Some (gen, if (rv =? 0)%Z then Dec x (okidx 0 (b_w2 i) []) else Idle).
Proof.
  intros D (M1 & M2 & M3 & M4 & M5) NOW (_ & F1 & F2 & F3 & F4 & F5 & F6) G1 G2 A R.
  unfold ballot_acts. unfold run_ballot in R. rewrite A in *. cbn [Z.eqb negb] in *.
  cbn [lrun lstep own idle]. cbn [andb].
  assert (ST : (1 <=? h) && (h <=? c_hosts c) && (c_hosts c <=? c_max c) &&
     (mbal mod c_max c =? h mod c_max c) && (1 <=? mbal) && (1 <=? lver) = true) by lia.
  rewrite ST. rewrite lrun_app, wacts_run by lia.
  destruct (majn n (num_ok (b_w1 i))) eqn:W1; cbn [negb] in R |- *;
    [|injection R as <- <- <-; reflexivity].
  cbn [lrun lstep own]. rewrite (writes_maj c n) by auto. rewrite W1.
  destruct (disks1 lver mbal (b_r1 i) 0 zero_blk) as [e|k1 mx] eqn:D1.
  { injection R as <- <- <-. cbn.
    assert (X : (e =? 0)%Z = false); [|now rewrite X].
    clear -D1. revert D1. generalize 0%nat zero_blk.
    induction (b_r1 i) as [|[r bks] l IH]; cbn; [discriminate|]. intros k m.
    destruct (r <? 0)%Z; [apply IH|]. destruct (blocks1 lver mbal bks m); try (intros [= <-]; reflexivity).
    apply IH. }
  destruct (disks1_scan _ _ _ 0 _ _ _ _ G1 D1) as [S1 ->]. cbn [Nat.add] in *.
  fold (used1 i) in *.
  destruct (majn n (length (filter fst (used1 i)))) eqn:R1; cbn [negb] in R |- *;
    [|injection R as <- <- <-; reflexivity].
  rewrite lrun_app, racts_run by (unfold used1; rewrite map_length; lia).
  cbn [app lrun lstep own].
  rewrite (reads_maj c n), R1; auto; [|unfold used1; now rewrite map_length|lia|].
  2:{ unfold used1. rewrite Forall_map. eapply Forall_impl; [|exact F5]. cbn. intros y K P. apply K. lia. }
  destruct (N.leb_spec 1 (b_now i)); [|lia]. cbn [andb phase1_blk d_lver d_mbal].
  rewrite S1.
  rewrite lrun_app, wacts_run by lia.
  destruct (majn n (num_ok (b_w2 i))) eqn:W2; cbn [negb] in R |- *;
    [|injection R as <- <- <-; reflexivity].
  cbn [lrun lstep own]. rewrite (writes_maj c n) by auto. rewrite W2.
  destruct (disks2 lver mbal (bufs_after (b_r1 i)) (b_r2 i) 0) as [e|k2 z] eqn:D2.
  { injection R as <- <- <-. cbn.
    assert (X : (e =? 0)%Z = false); [|now rewrite X].
    clear -D2. revert D2. generalize 0%nat (b_r2 i). generalize (bufs_after (b_r1 i)).
    induction l as [|b l IH]; intros k l2; [discriminate|]. destruct l2 as [|[r bks] l2]; [discriminate|]. cbn.
    destruct b; cbn [negb]; [|apply IH].
    destruct (r <? 0)%Z; [apply IH|]. destruct (blocks2 lver mbal bks); try (intros [= <-]; reflexivity).
    apply IH. }
  destruct (disks2_scan _ _ _ _ 0 _ _ _ G2 D2) as [[z' S2] ->]. cbn [Nat.add] in *.
  fold (used2 i) in *.
  destruct (majn n (length (filter fst (used2 i)))) eqn:R2; cbn [negb] in R |- *;
    [|injection R as <- <- <-; reflexivity].
  assert (LU : length (used2 i) = n) by (unfold used2; rewrite map_length, combine_length; lia).
  rewrite lrun_app, racts_run by lia.
  cbn [app lrun lstep own].
  rewrite (reads_maj c n), R2; auto; [|lia|].
  2:{ unfold used2. rewrite Forall_map. apply Forall_forall. intros [y1 y2] I. cbn. intros P.
      apply in_combine_r in I. rewrite Forall_forall in F6. apply F6; auto. lia. }
  assert (PB : d_lver (phase2_blk (phase1_blk lver mbal) mx h gen (b_now i)) = lver /\
               d_mbal (phase2_blk (phase1_blk lver mbal) mx h gen (b_now i)) = mbal).
  { unfold phase2_blk. destruct (d_inp mx =? 0); cbn; auto. }
  destruct PB as [-> ->]. rewrite S2.
  injection R as <- <- <-. reflexivity.
Qed.
