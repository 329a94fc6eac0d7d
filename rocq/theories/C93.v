(* C93: the disks of a lease are opened if a majority can be, and otherwise none stays open *)
From Coq Require Import List NArith ZArith Lia Bool Arith ZifyBool ZifyN ZifyNat.
From Verif Require Import Majority OpenDisks.
Import ListNotations.
Open Scope Z_scope.

(* ---- specification ---- *)
(* how many times fd has been opened and not closed *)
Fixpoint held (fd : Z) (l : list fdop) : Z :=
  match l with
  | [] => 0
  | Open x :: r => (if x =? fd then 1 else 0) + held fd r
  | Close x :: r => (if x =? fd then -1 else 0) + held fd r
  end.
Definition uses (fd : Z) (ds : list disk) : Z := Z.of_nat (length (filter (fun d => d_fd d =? fd) ds)).
Definition closed (d : disk) : Prop := d_fd d = -1.
Definition good (o : opened) : bool := match o with OpenOk _ Regular => true | OpenOk _ (Device _) => true | _ => false end.
Definition opens (o : opened) : bool := match o with OpenOk _ _ => true | _ => false end.
(* answers of the system: descriptors are not negative, error numbers are positive *)
Definition real (o : opened) : Prop :=
  match o with OpenErr e => 0 < e | OpenOk fd (StatErr e) => 0 <= fd /\ 0 < e | OpenOk fd _ => 0 <= fd end.
Definition most (n k : nat) : Prop := (n < 2 * k)%nat.
Definition aligned (d : disk) : Prop := (d_off d mod d_ss d = 0)%N.

(* what the comment above open_disks promises: sector sizes match, and open_disk verifies the offset *)
Definition C93_verified_statement : Prop := forall ds os ds' l, Forall closed ds -> length os = length ds -> Forall real os ->
  open_disks ds os = (ds', 0, l) ->
  forall a b, In a ds' -> In b ds' -> d_fd a <> -1 -> d_fd b <> -1 -> d_ss a = d_ss b /\ aligned a.
Definition C93_own_statement : Prop := forall ds os ds' rv l, length os = length ds -> Forall real os ->
  open_disks ds os = (ds', rv, l) -> forall fd, 0 <= held fd l.

(* ---- proofs ---- *)
Lemma held_app fd a b : held fd (a ++ b) = held fd a + held fd b.
Proof. induction a as [|[x|x] a IH]; cbn [app held]; lia. Qed.

Lemma uses_cons fd d ds : uses fd (d :: ds) = (if d_fd d =? fd then 1 else 0) + uses fd ds.
Proof. unfold uses. cbn [filter]. destruct (d_fd d =? fd); cbn [length]; lia. Qed.

Lemma close_spec ds ds' l : close_disks ds = (ds', l) ->
  Forall closed ds' /\ length ds' = length ds /\ map d_off ds' = map d_off ds /\ forall fd, 0 <= fd -> held fd l = - uses fd ds.
Proof.
  revert ds' l. induction ds as [|d ds IH]; intros ds' l H; cbn [close_disks] in H.
  - injection H as <- <-. repeat split; auto. 
  - destruct (close_disks ds) as (r, l0). destruct (IH r l0 eq_refl) as (C & L & O & U). destruct (Z.eqb_spec (d_fd d) (-1)) as [E|E]; injection H as <- <-.
    + repeat split; cbn [length map]; [constructor; auto|lia|rewrite O; reflexivity|]. intros fd F. rewrite uses_cons, U by exact F. destruct (Z.eqb_spec (d_fd d) fd); lia.
    + repeat split; cbn [length map d_off]; [constructor; [reflexivity|auto]|lia|rewrite O; reflexivity|]. intros fd F. rewrite uses_cons. cbn [held]. rewrite U by exact F.
      destruct (d_fd d =? fd); lia.
Qed.

Definition live (d : disk) : bool := negb (d_fd d =? -1).

Lemma loop_spec : forall ds os rv ds' n rv' bad l, Forall closed ds -> length os = length ds -> Forall real os -> rv < 0 ->
  open_loop ds os rv = (ds', n, rv', bad, l) ->
  bad = false /\ rv' < 0 /\ n = length (filter good os) /\ n = length (filter live ds') /\ length ds' = length ds /\
  map d_off ds' = map d_off ds /\ (forall fd, 0 <= fd -> held fd l = uses fd ds').
Proof.
  induction ds as [|d ds IH]; intros os rv ds' n rv' bad l C L R V H; cbn [open_loop] in H.
  - injection H as <- <- <- <- <-. destruct os; [|discriminate]. repeat split; auto.
  - destruct os as [|o os]; [discriminate|]. cbn [hd tl] in H. inversion C as [|? ? Cd C']; subst. inversion R as [|? ? Ro R']; subst.
    unfold closed in Cd. rewrite Cd in H. cbn [Z.eqb Pos.eqb negb] in H. injection L as L.
    destruct (open_disk d o) as ((d', err), lo) eqn:EO.
    destruct (open_loop ds os (if err <? 0 then err else rv)) as ((((r, m), rv2), b2), l2) eqn:EL. injection H as <- <- <- <- <-.
    destruct (IH os (if err <? 0 then err else rv) _ _ _ _ _ C' L R' ltac:(destruct (Z.ltb_spec err 0); lia) EL) as (B & V2 & G & Lv & Ln & Of & U).
    assert (K : (err < 0 /\ good o = false /\ d' = d /\ (lo = [] \/ exists fd, lo = [Open fd; Close fd])) \/
                (err = 0 /\ good o = true /\ exists fd, 0 <= fd /\ d_fd d' = fd /\ d_off d' = d_off d /\ lo = [Open fd])).
    { unfold open_disk in EO. unfold real in Ro. destruct o as [e|fd k].
      - injection EO as <- <- <-. left. split; [destruct (Z.leb_spec 0 (- e)); lia|]. split; [reflexivity|]. split; [reflexivity|]. left. reflexivity.
      - destruct k as [e| |ss|]; injection EO as <- <- <-.
        + left. split; [destruct (Z.leb_spec 0 (- e)); lia|]. split; [reflexivity|]. split; [reflexivity|]. right. eexists. reflexivity.
        + right. split; [reflexivity|]. split; [reflexivity|]. exists fd. repeat split; auto.
        + right. split; [reflexivity|]. split; [reflexivity|]. exists fd. repeat split; auto.
        + left. split; [lia|]. split; [reflexivity|]. split; [reflexivity|]. right. eexists. reflexivity. }
    destruct K as [(Er & Gd & Dd & Lo)|(Er & Gd & fd & Fd & Df & Do & Lo)].
    + subst d'. replace (err <? 0) with true by lia. cbn [filter]. unfold live at 1. rewrite Gd, Cd. cbn [Z.eqb Pos.eqb negb length map].
      repeat split; auto; try lia. rewrite Of. reflexivity.
      intros x X. rewrite held_app, uses_cons, U by exact X. rewrite Cd. replace (-1 =? x) with false by lia.
      destruct Lo as [->|(fd & ->)]; cbn [held]; [lia|]. destruct (fd =? x); lia.
    + replace (err <? 0) with false by lia. cbn [filter]. unfold live at 1. rewrite Gd, Df. replace (fd =? -1) with false by lia. cbn [negb length map].
      repeat split; auto; try lia. rewrite Of, Do. reflexivity.
      intros x X. rewrite held_app, uses_cons, U by exact X. rewrite Df. subst lo. cbn [held]. destruct (fd =? x); lia.
Qed.

Lemma majority_most n k : majority_disks (Z.of_nat n) (Z.of_nat k) = true <-> most n k.
Proof.
  unfold most. split; intros H.
  - apply majority_half in H; lia.
  - destruct n; [|apply majority_half_conv; lia]. unfold majority_disks. destruct k; [lia|reflexivity].
Qed.

(* success exactly if a majority could be opened *)
Theorem C93_majority : forall ds os ds' rv l, Forall closed ds -> length os = length ds -> Forall real os ->
  open_disks ds os = (ds', rv, l) ->
  (rv = 0 <-> most (length ds) (length (filter good os))) /\ rv <= 0.
Proof.
  intros ds os ds' rv l C L R H. unfold open_disks in H. destruct (open_loop ds os (-1)) as ((((d1, n), rv1), bad), l1) eqn:E.
  destruct (loop_spec _ _ _ _ _ _ _ _ C L R (eq_refl : -1 < 0) E) as (-> & V & G & Lv & Ln & Of & U). cbn [orb] in H. rewrite <- G.
  destruct (majority_disks (Z.of_nat (length ds)) (Z.of_nat n)) eqn:M; cbn [negb] in H.
  - injection H as <- <- <-. split; [|lia]. split; [intros _; apply majority_most; exact M|reflexivity].
  - destruct (close_disks d1) as (d2, l2). injection H as <- <- <-. split; [|lia]. split; [lia|]. intros K. apply majority_most in K. congruence.
Qed.
Print Assumptions C93_majority.

(* what is open afterwards is what the disks say: a majority after success, nothing after an error *)
Theorem C93_descriptors : forall ds os ds' rv l, Forall closed ds -> length os = length ds -> Forall real os ->
  open_disks ds os = (ds', rv, l) ->
  (forall fd, 0 <= fd -> held fd l = uses fd ds') /\ map d_off ds' = map d_off ds /\
  (rv = 0 -> most (length ds') (length (filter live ds'))) /\ (rv <> 0 -> Forall closed ds').
Proof.
  intros ds os ds' rv l C L R H. unfold open_disks in H. destruct (open_loop ds os (-1)) as ((((d1, n), rv1), bad), l1) eqn:E.
  destruct (loop_spec _ _ _ _ _ _ _ _ C L R (eq_refl : -1 < 0) E) as (-> & V & G & Lv & Ln & Of & U). cbn [orb] in H.
  destruct (majority_disks (Z.of_nat (length ds)) (Z.of_nat n)) eqn:M; cbn [negb] in H.
  - injection H as <- <- <-. split; [exact U|]. split; [exact Of|]. split; [|congruence]. intros _. rewrite <- Lv, Ln. apply majority_most. exact M.
  - destruct (close_disks d1) as (d2, l2) eqn:Cl. injection H as <- <- <-. destruct (close_spec _ _ _ Cl) as (Cd & Lc & Oc & Uc).
    split; [|split; [congruence|split; [lia|intros _; exact Cd]]].
    intros fd F. rewrite held_app, U, Uc by exact F. assert (Z0 : uses fd d2 = 0).
    { clear -Cd F. induction Cd as [|d ds D Cd IH]; [reflexivity|]. rewrite uses_cons, IH. unfold closed in D. rewrite D. destruct (Z.eqb_spec (-1) fd); lia. }
    lia.
Qed.
Print Assumptions C93_descriptors.

Lemma fd_loop_spec : forall ds os rv ds' n rv' bad l, Forall closed ds -> length os = length ds -> Forall real os -> rv < 0 ->
  open_fd_loop ds os rv = (ds', n, rv', bad, l) ->
  bad = false /\ rv' < 0 /\ n = length (filter opens os) /\ n = length (filter live ds') /\ length ds' = length ds /\
  map d_ss ds' = map d_ss ds /\ (forall fd, 0 <= fd -> held fd l = uses fd ds').
Proof.
  induction ds as [|d ds IH]; intros os rv ds' n rv' bad l C L R V H; cbn [open_fd_loop] in H.
  - injection H as <- <- <- <- <-. destruct os; [|discriminate]. repeat split; auto.
  - destruct os as [|o os]; [discriminate|]. cbn [hd tl] in H. inversion C as [|? ? Cd C']; subst. inversion R as [|? ? Ro R']; subst.
    unfold closed in Cd. rewrite Cd in H. cbn [Z.eqb Pos.eqb negb] in H. injection L as L. destruct o as [e|fd k].
    + destruct (open_fd_loop ds os (- e)) as ((((r, m), rv2), b2), l2) eqn:EL. injection H as <- <- <- <- <-.
      cbn [real] in Ro. destruct (IH os (- e) _ _ _ _ _ C' L R' ltac:(lia) EL) as (B & V2 & G & Lv & Ln & Of & U).
      cbn [filter opens]. unfold live at 1. rewrite Cd. cbn [Z.eqb Pos.eqb negb length map]. repeat split; auto; try lia. rewrite Of; reflexivity.
      intros x X. rewrite uses_cons, U by exact X. rewrite Cd. replace (-1 =? x) with false by lia. lia.
    + destruct (open_fd_loop ds os rv) as ((((r, m), rv2), b2), l2) eqn:EL. injection H as <- <- <- <- <-.
      destruct (IH os rv _ _ _ _ _ C' L R' V EL) as (B & V2 & G & Lv & Ln & Of & U).
      assert (F0 : 0 <= fd) by (cbn [real] in Ro; destruct k; lia).
      cbn [filter opens]. unfold live at 1. cbn [d_fd]. replace (fd =? -1) with false by lia. cbn [negb length map d_ss]. repeat split; auto; try lia. rewrite Of; reflexivity.
      intros x X. rewrite uses_cons. cbn [held d_fd]. rewrite U by exact X. lia.
Qed.

Theorem C93_reopen : forall ds os ds' rv l, Forall closed ds -> length os = length ds -> Forall real os ->
  open_disks_fd ds os = (ds', rv, l) ->
  (rv = 0 <-> most (length ds) (length (filter opens os))) /\ (forall fd, 0 <= fd -> held fd l = uses fd ds') /\
  (rv = 0 -> most (length ds') (length (filter live ds'))) /\ (rv <> 0 -> rv < 0 /\ Forall closed ds').
Proof.
  intros ds os ds' rv l C L R H. unfold open_disks_fd in H. destruct (open_fd_loop ds os (-1)) as ((((d1, n), rv1), bad), l1) eqn:E.
  destruct (fd_loop_spec _ _ _ _ _ _ _ _ C L R (eq_refl : -1 < 0) E) as (-> & V & G & Lv & Ln & Of & U). cbn [orb] in H. rewrite <- G.
  destruct (majority_disks (Z.of_nat (length ds)) (Z.of_nat n)) eqn:M; cbn [negb] in H.
  - injection H as <- <- <-. split; [split; [intros _; apply majority_most; exact M|reflexivity]|]. split; [exact U|].
    split; [|congruence]. intros _. rewrite <- Lv, Ln. apply majority_most. exact M.
  - destruct (close_disks d1) as (d2, l2) eqn:Cl. injection H as <- <- <-. destruct (close_spec _ _ _ Cl) as (Cd & Lc & Oc & Uc).
    split; [split; [lia|]; intros K; apply majority_most in K; congruence|]. split; [|split; [lia|intros _; split; [lia|exact Cd]]].
    intros fd F. rewrite held_app, U, Uc by exact F. assert (Z0 : uses fd d2 = 0).
    { clear -Cd F. induction Cd as [|d ds D Cd IH]; [reflexivity|]. rewrite uses_cons, IH. unfold closed in D. rewrite D. destruct (Z.eqb_spec (-1) fd); lia. }
    lia.
Qed.
Print Assumptions C93_reopen.

(* different sector sizes and an offset in the middle of a sector are accepted *)
Theorem C93_verified_refuted : ~ C93_verified_statement.
Proof.
  intros H. specialize (H [mkDisk (-1) 0 7; mkDisk (-1) 0 0] [OpenOk 3 (Device 512); OpenOk 4 (Device 4096)] _ _
    ltac:(repeat constructor) eq_refl ltac:(repeat constructor; cbn; lia) eq_refl).
  destruct (H (mkDisk 3 512 7) (mkDisk 4 4096 0)) as (E & _); cbn; auto; try lia; discriminate.
Qed.
Print Assumptions C93_verified_refuted.
Theorem C93_alignment_refuted : exists d, snd (fst (open_disk (mkDisk (-1) 0 7) (OpenOk 3 (Device 512)))) = 0 /\
  d = fst (fst (open_disk (mkDisk (-1) 0 7) (OpenOk 3 (Device 512)))) /\ ~ aligned d.
Proof. eexists. split; [reflexivity|]. split; [reflexivity|]. unfold aligned. vm_compute. discriminate. Qed.
Print Assumptions C93_alignment_refuted.

(* a disk that is already open: its descriptor, which this call did not open, is closed *)
Theorem C93_own_refuted : ~ C93_own_statement.
Proof.
  intros H. specialize (H [mkDisk (-1) 0 0; mkDisk 9 512 0] [OpenOk 3 Regular; OpenOk 4 Regular] _ _ _ eq_refl ltac:(repeat constructor; cbn; lia) eq_refl 9).
  vm_compute in H. apply H. reflexivity.
Qed.
Print Assumptions C93_own_refuted.

Example C93_nonvacuous :
  open_disks [mkDisk (-1) 0 0; mkDisk (-1) 0 0; mkDisk (-1) 0 0] [OpenOk 3 (Device 512); OpenErr 13; OpenOk 4 (Device 512)] =
    ([mkDisk 3 512 0; mkDisk (-1) 0 0; mkDisk 4 512 0], 0, [Open 3; Open 4]) /\
  open_disks [mkDisk (-1) 0 0; mkDisk (-1) 0 0] [OpenOk 3 Regular; OpenOk 4 (StatErr 5)] =
    ([mkDisk (-1) 512 0; mkDisk (-1) 0 0], -5, [Open 3; Open 4; Close 4; Close 3]).
Proof. split; reflexivity. Qed.
