(* C46: the value block a new holder reads. *)
From Coq Require Import List ZArith Lia Bool.
From Verif Require Import Lvb.
Import ListNotations.
Open Scope Z_scope.

(* ---------------- specification (no disk, buffers or flags) ---------------- *)
(* Per lease the values a new holder may find: the last value committed by a completed
   release or downgrade, and values whose holder tried to release and did not complete.
   Per holder the value it sees and whether it has set it since the last commit. *)
Record spec := mkSpec { may : nat -> list block; view : nat -> nat -> option (block * bool) }.
Definition upd_may (p : spec) (l : nat) (x : list block) : spec :=
  mkSpec (fun l' => if Nat.eqb l' l then x else may p l') (view p).
Definition upd_view (p : spec) (h l : nat) (x : option (block * bool)) : spec :=
  mkSpec (may p) (fun h' l' => if Nat.eqb h' h && Nat.eqb l' l then x else view p h' l').
Definition commit (p : spec) (h l : nat) : spec :=
  match view p h l with Some (v, true) => upd_may p l [v] | _ => p end.
Definition attempt (p : spec) (h l : nat) : spec :=
  match view p h l with Some (v, true) => upd_may p l (v :: may p l) | _ => p end.
Definition clean (p : spec) (h l : nat) : spec :=
  match view p h l with Some (v, _) => upd_view p h l (Some (v, false)) | None => p end.
Definition spec_step (n : nat) (p : spec) (e : ev) (o : option block) : spec :=
  match e with
  | EAcq h l _ _ _ _ => upd_view p h l (match o with Some b => Some (b, false) | None => None end)
  | ESet h l v => match view p h l with
                  | Some (b, _) => upd_view p h l (Some (v ++ skipn (length v) b, true))
                  | None => p
                  end
  | EEx2sh h l _ CvOk => clean (commit p h l) h l
  | EEx2sh h l _ _ => attempt p h l
  | ERelease h l _ ROk => upd_view (commit p h l) h l None
  | ERelease h l _ RTimeout => attempt p h l
  | ERelease h l _ RErr => upd_view (attempt p h l) h l None
  | ECrash h => mkSpec (may p) (fun h' l' => if Nat.eqb h' h then None else view p h' l')
  | EInit l => upd_may p l [repeat 0 n]
  | _ => p
  end.
(* every value block read at an acquire is one it may be *)
Fixpoint reads_ok (n : nat) (p : spec) (es : list ev) (os : list (option block)) : Prop :=
  match es, os with
  | e :: er, o :: or_ =>
    (match e, o with EAcq _ l _ _ _ _, Some b => In b (may p l) | _, _ => True end) /\
    reads_ok n (spec_step n p e o) er or_
  | _, _ => True
  end.
Definition spec0 (v : nat -> block) : spec := mkSpec (fun l => [v l]) (fun _ _ => None).
(* areas do not overlap, and the records end before the value block and the area *)
Definition layout (g : geom) : Prop :=
  recs g <= LVB_SECTOR /\ recs g <= asz g /\
  forall l l', l <> l' -> base g l + asz g <= base g l' \/ base g l' + asz g <= base g l.
Definition C46_statement : Prop := forall g d es s os, layout g ->
  lrun g (linit d) es = Some (s, os) -> reads_ok (ssz g) (spec0 (fun l => d (lvb_sector g l))) es os.

(* ---------------- what has to go well ---------------- *)
(* value block reads and writes succeed, only exclusive holders set it, and no
   conversion leaves the lease to be erased *)
Definition calm_ev (s : lst) (e : ev) : bool :=
  match e with
  | EAcq _ _ _ _ rdok _ => rdok
  | ESet h l _ => match holds s h l with HHeld x => h_ex x | _ => true end
  | EEx2sh _ _ w c => match w, c with WOk, CvErase => false | WOk, _ => true | _, _ => false end
  | ESh2exFail _ _ => false
  | ERelease _ _ w _ => match w with WOk => true | _ => false end
  | _ => true
  end.
Fixpoint calm (g : geom) (s : lst) (es : list ev) : bool :=
  match es with
  | [] => true
  | e :: r => calm_ev s e && match lstep g s e with Some (s1, _) => calm g s1 r | None => true end
  end.
Definition fits (g : geom) : Prop := LVB_SECTOR < asz g.

(* ---------------- invariant ---------------- *)
Definition held_ok (g : geom) (s : lst) (p : spec) (h l : nat) : Prop :=
  match holds s h l with
  | HHeld x =>
    h_erase x = false /\
    match h_lvb x with
    | Some b => exists dirty, view p h l = Some (b, dirty) /\
        (dirty = true -> h_flag x = true \/ disk s (lvb_sector g l) = b) /\
        (h_flag x = true -> dirty = true \/ disk s (lvb_sector g l) = b) /\ (dirty = true -> h_ex x = true)
    | None => view p h l = None /\ h_flag x = false
    end
  | _ => view p h l = None
  end.
Definition is_ex (x : hslot) : bool := match x with HNone => false | HHeld y => h_ex y | HStuck e => e end.
Record LI (g : geom) (s : lst) (p : spec) : Prop := mkLI {
  li_may : forall l, In (disk s (lvb_sector g l)) (may p l);
  li_held : forall h l, held_ok g s p h l;
  li_out : forall h l, (hostsn g <= h)%nat -> holds s h l = HNone;
  li_mutex : forall h h' l, h <> h' -> is_ex (holds s h l) = true -> holds s h' l = HNone;
  li_pend : pend s = [] }.

Lemma sector_ne : forall g l l', layout g -> fits g -> l <> l' -> lvb_sector g l <> lvb_sector g l'.
Proof.
  intros g l l' (R1 & R2 & D) F N. unfold lvb_sector. unfold fits in F. specialize (D l l' N). unfold LVB_SECTOR in *. lia.
Qed.
Lemma free_for_spec : forall g s h l ex h', free_for g s h l ex = true -> (h' < hostsn g)%nat -> h' <> h -> blocks ex (holds s h' l) = false.
Proof.
  intros g s h l ex h' F L N. unfold free_for in F. rewrite forallb_forall in F. specialize (F h' ltac:(apply in_seq; lia)).
  apply orb_true_iff in F. destruct F as [F|F]; [apply Nat.eqb_eq in F; congruence|]. apply negb_true_iff in F. exact F.
Qed.
Lemma hl_case : forall h' h l' l, (h' = h /\ l' = l /\ Nat.eqb h' h && Nat.eqb l' l = true) \/ ((h' <> h \/ l' <> l) /\ Nat.eqb h' h && Nat.eqb l' l = false).
Proof.
  intros h' h l' l. destruct (Nat.eqb_spec h' h) as [A|A], (Nat.eqb_spec l' l) as [B|B]; cbn; tauto.
Qed.

(* one host's step on one lease *)
Lemma upd_LI : forall g s p s' p' h l,
  LI g s p -> (h < hostsn g)%nat -> pend s' = [] ->
  (forall h' l', h' <> h \/ l' <> l -> holds s' h' l' = holds s h' l' /\ view p' h' l' = view p h' l') ->
  (forall l', l' <> l -> disk s' (lvb_sector g l') = disk s (lvb_sector g l') /\ may p' l' = may p l') ->
  (disk s' (lvb_sector g l) = disk s (lvb_sector g l) \/ forall h', h' <> h -> holds s h' l = HNone) ->
  In (disk s' (lvb_sector g l)) (may p' l) ->
  held_ok g s' p' h l ->
  (holds s' h l = HNone \/ (forall h', h' <> h -> holds s h' l = HNone) \/
   (is_ex (holds s' h l) = false /\ forall h', h' <> h -> is_ex (holds s h' l) = false)) ->
  LI g s' p'.
Proof.
  intros g s p s' p' h l [A B C D E] Lh P Hh Hl Dk My HO X.
  assert (EQ : forall h' l', h' <> h \/ l' <> l -> holds s' h' l' = holds s h' l') by (intros; apply Hh; assumption).
  constructor; auto.
  - intros l'. destruct (Nat.eq_dec l' l) as [->|N]; [exact My|]. destruct (Hl l' N) as (-> & ->). apply A.
  - intros h' l'. destruct (hl_case h' h l' l) as [(-> & -> & Q)|(N & Q)]; [exact HO|].
    specialize (B h' l'). unfold held_ok in *. destruct (Hh h' l' N) as (-> & ->).
    destruct (Nat.eq_dec l' l) as [->|Nl]; [|destruct (Hl l' Nl) as (-> & _); exact B].
    destruct Dk as [->|Dk]; [exact B|]. rewrite Dk in * by tauto. exact B.
  - intros h' l' Lh'. rewrite EQ by lia. apply C. exact Lh'.
  - intros h1 h2 l' N Ex.
    destruct (Nat.eq_dec l' l) as [->|Nl]; [|rewrite EQ in * by auto; eapply D; eauto].
    destruct (Nat.eq_dec h2 h) as [->|N2].
    + rewrite (EQ h1) in Ex by auto. destruct X as [X|[X|(_ & X)]]; [exact X| |].
      * rewrite X in Ex by exact N. discriminate Ex.
      * rewrite X in Ex by exact N. discriminate Ex.
    + rewrite EQ by auto. destruct (Nat.eq_dec h1 h) as [->|N1].
      * destruct X as [X|[X|(X & _)]]; [rewrite X in Ex; discriminate Ex|apply X; exact N2|congruence].
      * rewrite EQ in Ex by auto. eapply D; eauto.
Qed.

Lemma hold_same : forall s h l x, holds (set_hold s h l x) h l = x.
Proof. intros. cbn. rewrite !Nat.eqb_refl. reflexivity. Qed.
Lemma hold_other : forall s h l x h' l', h' <> h \/ l' <> l -> holds (set_hold s h l x) h' l' = holds s h' l'.
Proof. intros s h l x h' l' N. cbn. destruct (hl_case h' h l' l) as [(-> & -> & Q)|(_ & Q)]; [tauto|rewrite Q; reflexivity]. Qed.
Lemma view_same : forall p h l x, view (upd_view p h l x) h l = x.
Proof. intros. cbn. rewrite !Nat.eqb_refl. reflexivity. Qed.
Lemma view_other : forall p h l x h' l', h' <> h \/ l' <> l -> view (upd_view p h l x) h' l' = view p h' l'.
Proof. intros p h l x h' l' N. cbn. destruct (hl_case h' h l' l) as [(-> & -> & Q)|(_ & Q)]; [tauto|rewrite Q; reflexivity]. Qed.
Lemma may_same : forall p l x, may (upd_may p l x) l = x.
Proof. intros. cbn. rewrite Nat.eqb_refl. reflexivity. Qed.
Lemma may_other : forall p l x l', l' <> l -> may (upd_may p l x) l' = may p l'.
Proof. intros p l x l' N. cbn. destruct (Nat.eqb_neq l' l) as (_ & H). rewrite (H N). reflexivity. Qed.
Lemma disk_same : forall s a b, disk (set_disk s a b) a = b.
Proof. intros. cbn. rewrite Z.eqb_refl. reflexivity. Qed.
Lemma disk_other : forall s a b x, x <> a -> disk (set_disk s a b) x = disk s x.
Proof. intros s a b x N. cbn. destruct (Z.eqb_neq x a) as (_ & H). rewrite (H N). reflexivity. Qed.

(* commit and attempt only touch may at l *)
Lemma commit_facts : forall p h l, (forall h' l', view (commit p h l) h' l' = view p h' l') /\ (forall l', l' <> l -> may (commit p h l) l' = may p l') /\
  may (commit p h l) l = match view p h l with Some (v, true) => [v] | _ => may p l end.
Proof.
  intros p h l. unfold commit. destruct (view p h l) as [[v [|]]|]; split; auto.
  split; [intros; apply may_other; assumption|apply may_same].
Qed.
Lemma attempt_facts : forall p h l, (forall h' l', view (attempt p h l) h' l' = view p h' l') /\ (forall l', l' <> l -> may (attempt p h l) l' = may p l') /\
  may (attempt p h l) l = match view p h l with Some (v, true) => v :: may p l | _ => may p l end.
Proof.
  intros p h l. unfold attempt. destruct (view p h l) as [[v [|]]|]; split; auto.
  split; [intros; apply may_other; assumption|apply may_same].
Qed.

Lemma mutex_free : forall g s p h l ex, LI g s p -> free_for g s h l ex = true ->
  (if ex then forall h', h' <> h -> holds s h' l = HNone else forall h', h' <> h -> is_ex (holds s h' l) = false).
Proof.
  intros g s p h l ex I F. assert (O : forall h', (hostsn g <= h')%nat -> holds s h' l = HNone) by (intros; apply (li_out _ _ _ I); assumption).
  destruct ex; intros h' N; destruct (le_lt_dec (hostsn g) h') as [Le|Lt].
  - apply O. exact Le.
  - assert (B := free_for_spec g s h l true h' F Lt N). destruct (holds s h' l); [reflexivity|discriminate B..].
  - rewrite O by exact Le. reflexivity.
  - assert (B := free_for_spec g s h l false h' F Lt N). destruct (holds s h' l); [reflexivity|exact B..].
Qed.
Lemma held_lt : forall g s p h l, LI g s p -> holds s h l <> HNone -> (h < hostsn g)%nat.
Proof. intros g s p h l I N. destruct (le_lt_dec (hostsn g) h) as [Le|Lt]; [|exact Lt]. exfalso. apply N. apply (li_out _ _ _ I). exact Le. Qed.
(* while h holds l, the others either have nothing or share *)
Lemma others : forall g s p h l, LI g s p -> holds s h l <> HNone ->
  if is_ex (holds s h l) then forall h', h' <> h -> holds s h' l = HNone else forall h', h' <> h -> is_ex (holds s h' l) = false.
Proof.
  intros g s p h l I N. destruct (is_ex (holds s h l)) eqn:E; intros h' N'.
  - eapply (li_mutex _ _ _ I); eauto.
  - destruct (is_ex (holds s h' l)) eqn:E'; [|reflexivity]. exfalso. apply N. eapply (li_mutex _ _ _ I); eauto.
Qed.

Lemma step_LI : forall g s p e s' o, layout g -> fits g -> LI g s p -> calm_ev s e = true -> lstep g s e = Some (s', o) ->
  LI g s' (spec_step (ssz g) p e o) /\ match e, o with EAcq _ l _ _ _ _, Some b => In b (may p l) | _, _ => True end.
Proof.
  intros g s p e s' o LY FT I CA E. assert (SN := fun l l' => sector_ne g l l' LY FT).
  destruct e as [h l ex want rdok junk|h l v|h l w c|h l|h l|h l w r|h|l k b|l|]; cbn [lstep] in E; cbn [calm_ev] in CA; cbn [spec_step].
  - (* acquire *)
    subst rdok. destruct (Nat.ltb h (hostsn g)) eqn:Lh; [|discriminate E]. apply Nat.ltb_lt in Lh.
    destruct (free_for g s h l ex) eqn:F; [|discriminate E]. cbn in E. assert (MF := mutex_free g s p h l ex I F).
    assert (HN : forall (A : Type) (a : A) z, match holds s h l with HHeld _ => None | _ => Some a end = Some z -> a = z)
      by (intros A a z H; destruct (holds s h l); congruence).
    assert (G : forall x vw, held_ok g (set_hold s h l (HHeld x)) (upd_view p h l vw) h l -> h_ex x = ex ->
      LI g (set_hold s h l (HHeld x)) (upd_view p h l vw)).
    { intros x vw HO Ex. apply (upd_LI g s p _ _ h l I Lh).
      - apply (li_pend _ _ _ I).
      - intros h' l' N. split; [apply hold_other; exact N|apply view_other; exact N].
      - intros; split; reflexivity.
      - left. reflexivity.
      - apply (li_may _ _ _ I).
      - exact HO.
      - rewrite hold_same. cbn. rewrite Ex. right. destruct ex; [left; exact MF|right; split; [reflexivity|exact MF]]. }
    destruct want.
    + assert (EE : (set_hold s h l (HHeld (mkHold ex (Some (disk s (lvb_sector g l))) false false false)), Some (disk s (lvb_sector g l))) = (s', o))
        by (destruct (holds s h l); congruence).
      injection EE as <- <-. split; [|apply (li_may _ _ _ I)]. apply G; [|reflexivity].
      unfold held_ok. rewrite hold_same, view_same. cbn [h_lvb h_flag h_ex h_erase]. split; [reflexivity|]. exists false. do 2 (split; [reflexivity || discriminate|]). split; discriminate.
    + assert (EE : (set_hold s h l (HHeld (mkHold ex None false false false)), @None block) = (s', o))
        by (destruct (holds s h l); congruence).
      injection EE as <- <-. split; [|exact Logic.I]. apply G; [|reflexivity].
      unfold held_ok. rewrite hold_same, view_same. cbn. auto.
  - (* set *)
    assert (HO := li_held _ _ _ I h l). unfold held_ok in HO. destruct (holds s h l) as [|x|] eqn:EH; [discriminate E| |discriminate E].
    destruct (h_rel x); [discriminate E|]. destruct HO as (Er & HO). destruct (h_lvb x) as [b|]; [|discriminate E].
    destruct (Nat.leb (length v) (ssz g)); [|discriminate E]. injection E as <- <-. destruct HO as (dirty & V & _). rewrite V.
    assert (Lh : (h < hostsn g)%nat) by (eapply held_lt; [exact I|rewrite EH; discriminate]).
    assert (OT := others g s p h l I ltac:(rewrite EH; discriminate)). rewrite EH in OT. cbn [is_ex] in OT. rewrite CA in OT.
    split; [|exact Logic.I]. apply (upd_LI g s p _ _ h l I Lh).
    + apply (li_pend _ _ _ I).
    + intros h' l' N. split; [apply hold_other; exact N|apply view_other; exact N].
    + intros; split; reflexivity.
    + left. reflexivity.
    + apply (li_may _ _ _ I).
    + unfold held_ok. rewrite hold_same, view_same. cbn [h_lvb h_flag h_ex h_erase]. split; [exact Er|]. exists true. unfold overlay. auto 6.
    + right. left. exact OT.
  - (* exclusive to shared *)
    assert (w = WOk) by (destruct w; [reflexivity|discriminate CA..]). subst w.
    assert (HO := li_held _ _ _ I h l). unfold held_ok in HO. destruct (holds s h l) as [|x|] eqn:EH; [discriminate E| |discriminate E].
    destruct (h_rel x); [discriminate E|]. destruct (h_ex x) eqn:EX; [|discriminate E]. cbn in E.
    assert (Lh : (h < hostsn g)%nat) by (eapply held_lt; [exact I|rewrite EH; discriminate]).
    assert (OT := others g s p h l I ltac:(rewrite EH; discriminate)). rewrite EH in OT. cbn [is_ex] in OT. rewrite EX in OT.
    destruct HO as (Er & HO). set (s1 := if h_flag x then write_lvb g s l (h_lvb x) WOk else s) in E.
    assert (S1 : holds s1 = holds s /\ pend s1 = [] /\ (forall l', l' <> l -> disk s1 (lvb_sector g l') = disk s (lvb_sector g l')) /\
      (h_flag x = false -> disk s1 (lvb_sector g l) = disk s (lvb_sector g l)) /\
      (forall b, h_lvb x = Some b -> h_flag x = true -> disk s1 (lvb_sector g l) = b) /\
      (h_lvb x = None -> disk s1 (lvb_sector g l) = disk s (lvb_sector g l))).
    { assert (PE := li_pend _ _ _ I). unfold s1. destruct (h_flag x); [|auto 9; repeat split; auto; discriminate]. unfold write_lvb. destruct (h_lvb x) as [b|].
      - split; [reflexivity|]. split; [exact PE|]. split; [intros l' N; apply disk_other; apply SN; exact N|]. split; [discriminate|].
        split; [|discriminate]. intros b' Eb _. rewrite disk_same. congruence.
      - repeat split; auto; discriminate. }
    destruct S1 as (H1 & P1 & D1 & D2 & D3 & D4).
    assert (KEY : match h_lvb x with
                  | Some b => exists dirty, view p h l = Some (b, dirty) /\ (if dirty then disk s1 (lvb_sector g l) = b else In (disk s1 (lvb_sector g l)) (may p l)) /\
                      (h_flag x = true -> disk s1 (lvb_sector g l) = b)
                  | None => view p h l = None /\ disk s1 (lvb_sector g l) = disk s (lvb_sector g l) end).
    { destruct (h_lvb x) as [b|]; [|destruct HO as (V & _); auto]. destruct HO as (dirty & V & K1 & K2 & K3). exists dirty. split; [exact V|].
      split; [|intros Fl; apply (D3 b eq_refl Fl)]. destruct dirty.
      - destruct (h_flag x) eqn:FL; [apply (D3 b eq_refl eq_refl)|]. rewrite (D2 eq_refl). destruct (K1 eq_refl); [discriminate|assumption].
      - destruct (h_flag x) eqn:FL; [|rewrite (D2 eq_refl); apply (li_may _ _ _ I)]. rewrite (D3 b eq_refl eq_refl).
        destruct (K2 eq_refl) as [K|K]; [discriminate K|]. rewrite <- K. apply (li_may _ _ _ I). }
    split; [|destruct o; exact Logic.I].
    destruct c; [| |discriminate CA].
    + (* completed *)
      injection E as <- <-. destruct (commit_facts p h l) as (C1 & C2 & C3).
      assert (CL : (forall h' l', h' <> h \/ l' <> l -> view (clean (commit p h l) h l) h' l' = view p h' l') /\
        (forall l', may (clean (commit p h l) h l) l' = may (commit p h l) l') /\
        view (clean (commit p h l) h l) h l = match view p h l with Some (v, _) => Some (v, false) | None => None end).
      { unfold clean. rewrite C1. destruct (view p h l) as [[v dd]|] eqn:V.
        - split; [intros h' l' N; rewrite view_other by exact N; apply C1|]. split; [reflexivity|apply view_same].
        - split; [intros; apply C1|]. split; [reflexivity|rewrite C1; exact V]. }
      destruct CL as (CL1 & CL2 & CL3).
      apply (upd_LI g s p _ _ h l I Lh).
      * exact P1.
      * intros h' l' N. split; [rewrite hold_other by exact N; rewrite H1; reflexivity|apply CL1; exact N].
      * intros l' N. split; [apply D1; exact N|rewrite CL2; apply C2; exact N].
      * right. exact OT.
      * cbn [set_hold disk]. rewrite CL2, C3. destruct (h_lvb x) as [b|].
        -- destruct KEY as (dirty & V & K & _). rewrite V. destruct dirty; [left; symmetry; exact K|exact K].
        -- destruct KEY as (V & K). rewrite V, K. apply (li_may _ _ _ I).
      * unfold held_ok. rewrite hold_same. cbn [h_lvb h_flag h_ex h_erase set_hold disk]. split; [exact Er|]. rewrite CL3. destruct (h_lvb x) as [b|].
        -- destruct KEY as (dirty & V & K & Kf). rewrite V. exists false. split; [reflexivity|]. split; [discriminate|]. split; [auto|discriminate].
        -- destruct HO as (V & Fl). rewrite V. auto.
      * right. left. exact OT.
    + (* given up before the release *)
      injection E as <- <-. destruct (attempt_facts p h l) as (C1 & C2 & C3). apply (upd_LI g s p _ _ h l I Lh).
      * exact P1.
      * intros h' l' N. split; [rewrite H1; reflexivity|apply C1].
      * intros l' N. split; [apply D1; exact N|apply C2; exact N].
      * right. exact OT.
      * rewrite C3. destruct (h_lvb x) as [b|].
        -- destruct KEY as (dirty & V & K & _). rewrite V. destruct dirty; [left; symmetry; exact K|exact K].
        -- destruct KEY as (V & K). rewrite V, K. apply (li_may _ _ _ I).
      * unfold held_ok. rewrite H1, EH, C1. split; [exact Er|]. destruct (h_lvb x) as [b|]; [|exact HO].
        destruct KEY as (dirty & V & K & Kf). destruct HO as (d2 & V2 & K1 & K2 & K3). exists d2. split; [exact V2|].
        assert (d2 = dirty) by congruence. subst d2. split; [intros Hd; right; rewrite Hd in K; exact K|]. split; [auto|intros _; exact EX].
      * right. left. exact OT.
  - (* shared to exclusive *)
    assert (HO := li_held _ _ _ I h l). unfold held_ok in HO. destruct (holds s h l) as [|x|] eqn:EH; [discriminate E| |discriminate E].
    destruct (h_rel x) eqn:ER; [discriminate E|]. destruct (h_ex x) eqn:EX; [discriminate E|]. destruct (free_for g s h l true) eqn:F; [|discriminate E].
    cbn in E. injection E as <- <-. assert (MF := mutex_free g s p h l true I F). cbn in MF.
    assert (Lh : (h < hostsn g)%nat) by (eapply held_lt; [exact I|rewrite EH; discriminate]).
    split; [|exact Logic.I]. apply (upd_LI g s p _ _ h l I Lh).
    + apply (li_pend _ _ _ I).
    + intros h' l' N. split; [apply hold_other; exact N|reflexivity].
    + intros; split; reflexivity.
    + left. reflexivity.
    + apply (li_may _ _ _ I).
    + unfold held_ok. rewrite hold_same. cbn [h_lvb h_flag h_ex h_erase set_hold disk]. destruct HO as (Er & HO). split; [exact Er|].
      destruct (h_lvb x) as [b|]; [|exact HO]. destruct HO as (dirty & V & K1 & K2 & K3). exists dirty. auto 6.
    + right. left. exact MF.
  - discriminate CA.
  - (* release *)
    assert (w = WOk) by (destruct w; [reflexivity|discriminate CA..]). subst w.
    assert (HO := li_held _ _ _ I h l). unfold held_ok in HO. destruct (holds s h l) as [|x|] eqn:EH; [discriminate E| |discriminate E].
    assert (Lh : (h < hostsn g)%nat) by (eapply held_lt; [exact I|rewrite EH; discriminate]).
    assert (OT := others g s p h l I ltac:(rewrite EH; discriminate)). rewrite EH in OT. cbn [is_ex] in OT.
    destruct HO as (Er & HO). cbv zeta in E. rewrite Er in E. cbn [negb andb] in E. set (wr := h_ex x && h_flag x) in E.
    set (s1 := if wr then write_lvb g s l (h_lvb x) WOk else s) in E.
    set (f := if wr && wrote (h_lvb x) WOk then false else h_flag x) in E.
    assert (S1 : holds s1 = holds s /\ pend s1 = [] /\ (forall l', l' <> l -> disk s1 (lvb_sector g l') = disk s (lvb_sector g l')) /\
      (wr = false -> disk s1 (lvb_sector g l) = disk s (lvb_sector g l)) /\
      (forall b, h_lvb x = Some b -> wr = true -> disk s1 (lvb_sector g l) = b) /\
      (h_lvb x = None -> disk s1 (lvb_sector g l) = disk s (lvb_sector g l))).
    { assert (PE := li_pend _ _ _ I). unfold s1. destruct wr; [|repeat split; auto; discriminate]. unfold write_lvb. destruct (h_lvb x) as [b|].
      - split; [reflexivity|]. split; [exact PE|]. split; [intros l' N; apply disk_other; apply SN; exact N|]. split; [discriminate|].
        split; [|discriminate]. intros b' Eb _. rewrite disk_same. congruence.
      - repeat split; auto; discriminate. }
    destruct S1 as (H1 & P1 & D1 & D2 & D3 & D4).
    assert (KEY : match h_lvb x with
                  | Some b => exists dirty, view p h l = Some (b, dirty) /\ (if dirty then disk s1 (lvb_sector g l) = b else In (disk s1 (lvb_sector g l)) (may p l)) /\
                      (f = true -> dirty = true \/ disk s1 (lvb_sector g l) = b) /\ (dirty = true -> h_ex x = true)
                  | None => view p h l = None /\ disk s1 (lvb_sector g l) = disk s (lvb_sector g l) /\ f = false end).
    { destruct (h_lvb x) as [b|].
      - destruct HO as (dirty & V & K1 & K2 & K3). exists dirty. split; [exact V|]. split; [|split; [|exact K3]].
        + destruct dirty.
          * destruct wr eqn:WR; [apply (D3 b eq_refl eq_refl)|]. rewrite (D2 eq_refl). unfold wr in WR. rewrite (K3 eq_refl) in WR. cbn in WR.
            destruct (K1 eq_refl) as [K|K]; [congruence|exact K].
          * destruct wr eqn:WR; [|rewrite (D2 eq_refl); apply (li_may _ _ _ I)]. rewrite (D3 b eq_refl eq_refl).
            unfold wr in WR. apply andb_true_iff in WR. destruct (K2 (proj2 WR)) as [K|K]; [discriminate K|]. rewrite <- K. apply (li_may _ _ _ I).
        + unfold f. destruct wr eqn:WR; [cbn; discriminate|]. cbn. intros Fl. rewrite (D2 eq_refl). auto.
      - destruct HO as (V & Fl). split; [exact V|]. split; [apply D4; reflexivity|]. unfold f. rewrite Fl. destruct (wr && _); reflexivity. }
    assert (DK : disk s1 (lvb_sector g l) = disk s (lvb_sector g l) \/ forall h', h' <> h -> holds s h' l = HNone).
    { destruct (h_ex x) eqn:EX; [right; exact OT|]. left. apply D2. reflexivity. }
    split; [|destruct r; injection E as <- <-; exact Logic.I].
    assert (MC : In (disk s1 (lvb_sector g l)) (may (commit p h l) l)).
    { destruct (commit_facts p h l) as (C1 & C2 & C3). rewrite C3. destruct (h_lvb x) as [b|].
      - destruct KEY as (dirty & V & K & _). rewrite V. destruct dirty; [left; symmetry; exact K|exact K].
      - destruct KEY as (V & K & _). rewrite V, K. apply (li_may _ _ _ I). }
    assert (MA : In (disk s1 (lvb_sector g l)) (may (attempt p h l) l)).
    { destruct (attempt_facts p h l) as (C1 & C2 & C3). rewrite C3. destruct (h_lvb x) as [b|].
      - destruct KEY as (dirty & V & K & _). rewrite V. destruct dirty; [left; symmetry; exact K|exact K].
      - destruct KEY as (V & K & _). rewrite V, K. apply (li_may _ _ _ I). }
    destruct r; injection E as <- <-.
    + destruct (commit_facts p h l) as (C1 & C2 & C3). apply (upd_LI g s p _ _ h l I Lh).
      * exact P1.
      * intros h' l' N. split; [rewrite hold_other by exact N; rewrite H1; reflexivity|rewrite view_other by exact N; apply C1].
      * intros l' N. split; [apply D1; exact N|apply C2; exact N].
      * exact DK.
      * exact MC.
      * unfold held_ok. rewrite hold_same. apply view_same.
      * left. apply hold_same.
    + destruct (attempt_facts p h l) as (C1 & C2 & C3). apply (upd_LI g s p _ _ h l I Lh).
      * exact P1.
      * intros h' l' N. split; [rewrite hold_other by exact N; rewrite H1; reflexivity|apply C1].
      * intros l' N. split; [apply D1; exact N|apply C2; exact N].
      * exact DK.
      * exact MA.
      * unfold held_ok. rewrite hold_same, C1. cbn [h_lvb h_flag h_ex h_erase set_hold disk]. split; [reflexivity|].
        destruct (h_lvb x) as [b|]; [|tauto]. destruct KEY as (dirty & V & K & Kf & K3). exists dirty. split; [exact V|].
        split; [intros Hd; rewrite Hd in K; auto|]. auto.
      * rewrite hold_same. cbn [is_ex h_ex]. right. destruct (h_ex x); auto.
    + destruct (attempt_facts p h l) as (C1 & C2 & C3). apply (upd_LI g s p _ _ h l I Lh).
      * exact P1.
      * intros h' l' N. split; [rewrite hold_other by exact N; rewrite H1; reflexivity|rewrite view_other by exact N; apply C1].
      * intros l' N. split; [apply D1; exact N|apply C2; exact N].
      * exact DK.
      * exact MA.
      * unfold held_ok. rewrite hold_same. apply view_same.
      * rewrite hold_same. cbn [is_ex]. right. destruct (h_ex x); auto.
  - (* crash *)
    injection E as <- <-. split; [|exact Logic.I]. destruct I as [A B C D P]. constructor; cbn; auto.
    + intros h' l. specialize (B h' l). unfold held_ok in *. cbn. destruct (Nat.eqb h' h); [reflexivity|exact B].
    + intros h' l L. destruct (Nat.eqb h' h); auto.
    + intros h1 h2 l N Ex. destruct (Nat.eqb h2 h); [reflexivity|]. destruct (Nat.eqb h1 h); [discriminate Ex|]. eapply D; eauto.
  - (* a record *)
    destruct ((0 <=? k) && (k <? recs g)) eqn:K; [|discriminate E]. injection E as <- <-. split; [|exact Logic.I].
    assert (NS : forall l', lvb_sector g l' <> base g l + k).
    { intros l'. destruct LY as (R1 & R2 & D). unfold fits in FT. unfold lvb_sector, LVB_SECTOR in *.
      destruct (Nat.eq_dec l' l) as [->|N]; [lia|]. specialize (D l' l N). lia. }
    destruct I as [A B C D P]. constructor; auto.
    + intros l'. rewrite disk_other by apply NS. apply A.
    + intros h' l'. specialize (B h' l'). unfold held_ok in *. rewrite disk_other by apply NS. exact B.
  - (* initialise *)
    destruct (unheld g s l) eqn:U; [|discriminate E]. injection E as <- <-. split; [|exact Logic.I].
    assert (NH : forall h', holds s h' l = HNone).
    { intros h'. destruct (le_lt_dec (hostsn g) h') as [Le|Lt]; [apply (li_out _ _ _ I); exact Le|].
      unfold unheld in U. rewrite forallb_forall in U. specialize (U h' ltac:(apply in_seq; lia)). destruct (holds s h' l); [reflexivity|discriminate U..]. }
    assert (DS : (base g l <=? lvb_sector g l) && (lvb_sector g l <? base g l + asz g) = true).
    { unfold fits in FT. unfold lvb_sector, LVB_SECTOR in *. lia. }
    assert (DO : forall l', l' <> l -> (base g l <=? lvb_sector g l') && (lvb_sector g l' <? base g l + asz g) = false).
    { intros l' N. destruct LY as (R1 & R2 & D). specialize (D l' l N). unfold fits in FT. unfold lvb_sector, LVB_SECTOR in *. lia. }
    destruct I as [A B C D P]. constructor; auto.
    + intros l'. cbn [disk may upd_may]. destruct (Nat.eqb l' l) eqn:EL.
      * apply Nat.eqb_eq in EL. subst l'. rewrite DS. left. reflexivity.
      * apply Nat.eqb_neq in EL. rewrite (DO l' EL). apply A.
    + intros h' l'. specialize (B h' l'). unfold held_ok in *. cbn [disk holds view upd_may]. destruct (Nat.eq_dec l' l) as [->|EL].
      * rewrite NH in *. exact B.
      * rewrite (DO l' EL). exact B.
  - (* no write is left over *)
    rewrite (li_pend _ _ _ I) in E. discriminate E.
Qed.

Lemma init_LI : forall g d, LI g (linit d) (spec0 (fun l => d (lvb_sector g l))).
Proof. intros g d. constructor; cbn; auto; discriminate. Qed.

Lemma run_ok : forall es g s p s' os, layout g -> fits g -> LI g s p -> calm g s es = true -> lrun g s es = Some (s', os) ->
  reads_ok (ssz g) p es os.
Proof.
  induction es as [|e es IH]; intros g s p s' os LY FT I CA R; [exact Logic.I|]. cbn [lrun] in R. cbn [calm] in CA.
  apply andb_true_iff in CA. destruct CA as (C1 & C2). destruct (lstep g s e) as [[s1 o]|] eqn:E; [|discriminate R].
  destruct (lrun g s1 es) as [[s2 os2]|] eqn:R2; [|discriminate R].
  assert (os = o :: os2) by congruence. subst os. destruct (step_LI g s p e s1 o LY FT I C1 E) as (I1 & RD).
  cbn [reads_ok]. split; [exact RD|]. eapply IH; eauto.
Qed.

(* Whatever the hosts do with any number of leases - acquire, set, convert, release with
   timeouts and retries or failures, crash, re-initialise, write records - every value
   block read at acquire is the last committed one, or one whose holder was cut off
   while releasing.
   Missing from the full statement: failures of the value block I/O itself, values set
   under a shared lease, conversions that end in ERASE_ALL, areas too small for sector
   2002 (all refuted below). *)
Theorem C46_reads_partial : forall g d es s os, layout g -> fits g ->
  calm g (linit d) es = true -> lrun g (linit d) es = Some (s, os) ->
  reads_ok (ssz g) (spec0 (fun l => d (lvb_sector g l))) es os.
Proof. intros g d es s os LY FT CA R. eapply run_ok; eauto. apply init_LI. Qed.

(* and when every release and downgrade completes at once, exactly one value is
   possible: the last one committed *)
Definition whole (e : ev) : bool :=
  match e with ERelease _ _ _ ROk => true | ERelease _ _ _ _ => false | EEx2sh _ _ _ CvOk => true | EEx2sh _ _ _ _ => false | _ => true end.
Fixpoint spec_run (n : nat) (p : spec) (es : list ev) (os : list (option block)) : spec :=
  match es, os with e :: er, o :: or_ => spec_run n (spec_step n p e o) er or_ | _, _ => p end.
Theorem C46_single : forall n es os v l, forallb whole es = true -> exists b, may (spec_run n (spec0 v) es os) l = [b].
Proof.
  intros n es os v l. assert (G : forall es os p, (forall l, exists b, may p l = [b]) -> forallb whole es = true ->
    forall l, exists b, may (spec_run n p es os) l = [b]).
  { clear. induction es as [|e es IH]; intros os p H W l; [apply H|]. destruct os as [|o os]; [apply H|]. cbn [spec_run].
    cbn [forallb] in W. apply andb_true_iff in W. destruct W as (W1 & W2). apply IH; [|exact W2]. clear IH l. intros l.
    assert (CM : forall h' l', exists b, may (commit p h' l') l = [b]).
    { intros h' l'. unfold commit. destruct (view p h' l') as [[v0 [|]]|]; try apply H. cbn. destruct (Nat.eqb l l'); [eauto|apply H]. }
    destruct e as [h k ex want rdok junk|h k x|h k w c|h k|h k|h k w r|h|k kk b|k|]; cbn [spec_step]; try apply H.
    - destruct (view p h k) as [[b0 d0]|]; apply H.
    - destruct c; try discriminate W1. unfold clean. destruct (view (commit p h k) h k) as [[v0 d0]|]; apply CM.
    - destruct r; try discriminate W1. apply CM.
    - cbn. destruct (Nat.eqb l k); [eauto|apply H]. }
  intros W. apply G; [|exact W]. intros l'. exists (v l'). reflexivity.
Qed.

(* ---------------- refutations ---------------- *)
Definition g2 : geom := mkGeom 2 (fun l => 2048 * Z.of_nat l) 2048 2002 2.
Lemma g2_layout : layout g2 /\ fits g2.
Proof. unfold layout, fits, LVB_SECTOR; cbn -[Z.mul Z.of_nat Z.add Z.le Z.lt]. repeat split; try lia. Qed.
Definition d0 : Z -> block := fun _ => [7; 7].
Definition obs (g : geom) (es : list ev) : option (list (option block)) := option_map snd (lrun g (linit d0) es).
Lemma obs_run : forall g es os, obs g es = Some os -> exists s, lrun g (linit d0) es = Some (s, os).
Proof. intros g es os H. unfold obs in H. destruct (lrun g (linit d0) es) as [[s o]|]; [|discriminate H]. cbn in H. exists s. congruence. Qed.
Definition lost (g : geom) (es : list ev) (got : block) : Prop :=
  exists s os, lrun g (linit d0) es = Some (s, os) /\ last os None = Some got /\
  ~ reads_ok (ssz g) (spec0 (fun l => d0 (lvb_sector g l))) es os.
Ltac lose os0 := 
  match goal with |- lost ?g ?es _ =>
    let H := fresh in assert (H : obs g es = Some os0) by (vm_compute; reflexivity);
    let s := fresh in let R := fresh in destruct (obs_run g es os0 H) as (s & R); exists s, os0; split; [exact R|]; split; [reflexivity|]; vm_compute;
    intuition (try discriminate) end.

(* host 0 sets [1;2] and releases; host 1 acquires: *)
Definition set_release (w : wres) : list ev := [EAcq 0 0 true true true []; ESet 0 0 [1; 2]; ERelease 0 0 w ROk].
Definition take (rd : bool) : ev := EAcq 1 0 true true rd [9; 9].
(* a failed value block write is only logged: the release completes, the old value stays *)
Theorem C46_write_refuted : lost g2 (set_release WErr ++ [take true]) [7; 7].
Proof. lose [Some [7; 7]; @None block; None; Some [7; 7]]. Qed.
(* a failed read is only logged: the holder gets uninitialised memory *)
Theorem C46_read_refuted : lost g2 (set_release WOk ++ [take false]) [9; 9].
Proof. lose [Some [7; 7]; @None block; None; Some [9; 9]]. Qed.
(* a value set under a shared lease is accepted and never written *)
Theorem C46_shared_refuted : lost g2 ([EAcq 0 0 false true true []; ESet 0 0 [1; 2]; ERelease 0 0 WOk ROk] ++ [take true]) [7; 7].
Proof. lose [Some [7; 7]; @None block; None; Some [7; 7]]. Qed.
(* after a failed conversion the release erases the lease without writing the value *)
Theorem C46_erase_refuted : lost g2
  ([EAcq 0 0 true true true []; EEx2sh 0 0 WOk CvErase; ESet 0 0 [1; 2]; ERelease 0 0 WOk ROk] ++ [take true]) [7; 7].
Proof. lose [Some [7; 7]; @None block; None; None; Some [7; 7]]. Qed.
(* a timed out write reaches the disk after the next holder's value was committed *)
Theorem C46_late_refuted : lost g2
  (set_release WTimeout ++ [EAcq 1 0 true true true []; ESet 1 0 [3; 4]; ERelease 1 0 WOk ROk; ELand; EAcq 0 0 true true true []]) [1; 2].
Proof. lose [Some [7; 7]; @None block; None; Some [7; 7]; None; None; None; Some [1; 2]]. Qed.
(* 1 MB areas of 4096 byte sectors: sector 2002 of lease 0 is a host block of lease 7 *)
Definition g1m : geom := mkGeom 2 (fun l => 256 * Z.of_nat l) 256 252 2.
Theorem C46_area_refuted : layout g1m /\ lost g1m (set_release WOk ++ [ERec 7 210 [5; 5]; take true]) [5; 5].
Proof.
  split; [unfold layout, LVB_SECTOR; cbn -[Z.mul Z.of_nat Z.add Z.le Z.lt]; repeat split; lia|].
  lose [Some [7; 7]; @None block; None; None; Some [5; 5]].
Qed.
Theorem C46_refuted : ~ C46_statement.
Proof. intros H. destruct C46_write_refuted as (s & os & R & _ & N). apply N. eapply H; [apply g2_layout|exact R]. Qed.

(* non-vacuity: values travel through releases, a downgrade and upgrade, a retried
   release, a crash and another lease's records *)
Definition nv : list ev :=
  set_release WOk ++ [ERec 1 5 [8; 8]; EAcq 1 0 true true true []; ESet 1 0 [3]; EEx2sh 1 0 WOk CvOk;
    EAcq 0 0 false true true []; ERelease 0 0 WOk ROk; ESh2ex 1 0; ESet 1 0 [4]; ERelease 1 0 WOk RTimeout; ERelease 1 0 WOk ROk;
    EAcq 0 0 true true true []; ESet 0 0 [6]; ECrash 0; take true].
Example C46_nonvacuous : layout g2 /\ fits g2 /\ calm g2 (linit d0) nv = true /\
  obs g2 nv = Some [Some [7; 7]; None; None; None; Some [1; 2]; None; None; Some [3; 2]; None; None; None; None; None; Some [4; 2]; None; None; Some [4; 2]].
Proof. split; [apply g2_layout|]. split; [apply g2_layout|]. split; vm_compute; reflexivity. Qed.

Print Assumptions C46_reads_partial.
Print Assumptions C46_single.
Print Assumptions C46_refuted.
Print Assumptions C46_read_refuted.
Print Assumptions C46_shared_refuted.
Print Assumptions C46_erase_refuted.
Print Assumptions C46_late_refuted.
Print Assumptions C46_area_refuted.
