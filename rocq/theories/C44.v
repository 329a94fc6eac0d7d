(* C44: the watchdog is disarmed and the host id given back only when no live process
   holds a lease in the lockspace. *)
From Coq Require Import List Arith Lia Bool.
From Verif Require Import SpaceUse.
Import ListNotations.

(* ---------------- specification ---------------- *)
(* a live registered process was told it has a lease in the lockspace *)
Definition holds (s : ust) (c : nat) : Prop := u_live (u_cl s c) = true /\ u_toks (u_cl s c) <> [].
(* the step that disarms the watchdog and gives up the host id *)
Definition leaves (s s' : ust) : Prop := u_left s' <> u_left s.
Definition C44_statement : Prop := forall n es s e s',
  usteps n uinit es = Some s -> ustep n s e = Some s' -> leaves s s' ->
  (forall c, ~ holds s c) /\ u_killing s = true /\ u_ext s = false.

(* ---------------- invariant ---------------- *)
Definition uinv (n : nat) (s : ust) : Prop :=
  (forall c, n <= c -> u_live (u_cl s c) = false) /\
  (u_present s = false -> forall c, ~ holds s c) /\
  (match u_scan s with
   | Some (i, f) => u_present s = true /\ u_killing s = true /\ (f = false -> forall c, c < i -> ~ holds s c)
   | None => True
   end).

Lemma holds_upd : forall s c x d, holds (upd s c x) d <-> (if Nat.eqb d c then u_live x = true /\ u_toks x <> [] else holds s d).
Proof. intros s c x d. unfold holds, upd, set_cl. cbn. destruct (Nat.eqb d c); tauto. Qed.
Lemma filter_nil : forall A (f : A -> bool) l, filter f l <> [] -> l <> [].
Proof. intros A f l H E. subst l. apply H. reflexivity. Qed.

(* an update of one client that gives it nothing keeps the invariant *)
Lemma uinv_upd : forall n s c x, uinv n s ->
  (u_live x = true -> c < n) ->
  (u_live x = true -> u_toks x <> [] -> holds s c \/ (u_present s = true /\ u_scan s = None)) ->
  uinv n (upd s c x).
Proof.
  intros n s c x (A & B & C) L H. split; [|split].
  - intros d D. cbn. unfold set_cl. destruct (Nat.eqb d c) eqn:E; [|auto]. apply Nat.eqb_eq in E. subst d.
    destruct (u_live x); [specialize (L eq_refl); lia|reflexivity].
  - cbn. intros P d Hd. apply holds_upd in Hd. destruct (Nat.eqb d c) eqn:E; [|exact (B P d Hd)].
    apply Nat.eqb_eq in E. subst d. destruct Hd as (H1 & H2). destruct (H H1 H2) as [H3|(H3 & _)]; [exact (B P c H3)|congruence].
  - cbn. destruct (u_scan s) as [[i f]|]; [|exact Logic.I]. destruct C as (C1 & C2 & C3). do 2 (split; [assumption|]).
    intros F d D Hd. apply holds_upd in Hd. destruct (Nat.eqb d c) eqn:E; [|exact (C3 F d D Hd)].
    apply Nat.eqb_eq in E. subst d. destruct Hd as (H1 & H2). destruct (H H1 H2) as [H3|(_ & H3)]; [exact (C3 F c D H3)|discriminate H3].
Qed.

Lemma uinv_step : forall n s e s', uinv n s -> ustep n s e = Some s' -> uinv n s'.
Proof.
  intros n s e s' I S. assert (I0 := I). destruct I as (A & B & C).
  assert (LN : forall c, u_live (u_cl s c) = true -> c < n).
  { intros c L. destruct (Nat.lt_ge_cases c n); [assumption|]. rewrite A in L by assumption. discriminate. }
  destruct e as [hid gen|c|c|c|c|c f|c|c|b| | | |]; cbn [ustep] in S; cbv zeta in S.
  - destruct (no_scan s && negb (u_present s) && Nat.ltb (u_gen s) gen) eqn:E; [|discriminate S]. injection S as <-.
    split; [exact A|]. cbn. split; [discriminate|exact Logic.I].
  - destruct (_ && _) eqn:E in S; [|discriminate S]. injection S as <-.
    apply andb_true_iff in E. destruct E as (E & _). apply andb_true_iff in E. destruct E as (E & _).
    apply andb_true_iff in E. destruct E as (_ & E). apply Nat.ltb_lt in E.
    apply uinv_upd; cbn; auto. congruence.
  - destruct (_ && _) eqn:E in S; [|discriminate S]. injection S as <-.
    apply andb_true_iff in E. destruct E as (E & E1). apply uinv_upd; cbn; auto.
    intros H1 H2. left. split; auto.
  - destruct (_ && _) eqn:E in S; [|discriminate S]. injection S as <-.
    repeat (apply andb_true_iff in E; destruct E as (E & ?)). apply uinv_upd; cbn; auto.
    intros _ _. right. split; [assumption|]. unfold no_scan in E. destruct (u_scan s); [discriminate E|reflexivity].
  - injection S as <-. apply uinv_upd; cbn; auto. intros H1 H2. left. split; auto.
  - injection S as <-. apply uinv_upd; cbn; auto. intros H1 H2. left. split; [exact H1|]. eapply filter_nil; eauto.
  - destruct (_ && _) eqn:E in S; [|discriminate S]. injection S as <-. apply uinv_upd; cbn; auto; discriminate.
  - destruct (negb _) eqn:E in S; [|discriminate S]. injection S as <-. apply uinv_upd; cbn; auto; discriminate.
  - injection S as <-. exact I0.
  - destruct (_ && _) eqn:E in S; [|discriminate S]. injection S as <-. split; [exact A|]. cbn. split; [discriminate|exact Logic.I].
  - destruct (no_scan s && u_present s && u_killing s) eqn:E; [|discriminate S]. injection S as <-.
    apply andb_true_iff in E. destruct E as (E & E2). apply andb_true_iff in E. destruct E as (E & E1).
    split; [exact A|]. cbn. split; [exact B|]. do 2 (split; [assumption|]). intros _ c D. lia.
  - destruct (u_scan s) as [[i f]|]; [|discriminate S]. destruct (Nat.ltb i n) eqn:E; [|discriminate S]. injection S as <-.
    split; [exact A|]. cbn. split; [exact B|]. destruct C as (C1 & C2 & C3). do 2 (split; [assumption|]).
    intros F c D. apply orb_false_iff in F. destruct F as (F1 & F2).
    destruct (Nat.eq_dec c i) as [->|N]; [|apply C3; [exact F1|lia]].
    intros (H1 & H2). cbn in H1, H2. rewrite H1 in F2. destruct (u_toks (u_cl s i)); [congruence|discriminate F2].
  - destruct (u_scan s) as [[i f]|] eqn:ES; [|discriminate S]. destruct (Nat.ltb i n) eqn:E; [discriminate S|].
    destruct C as (C1 & C2 & C3). destruct (f || u_ext s) eqn:EF; injection S as <-.
    + split; [exact A|]. cbn. split; [exact B|exact Logic.I].
    + split; [exact A|]. cbn. split; [|exact Logic.I]. intros _ c (H1 & H2). cbn in H1, H2.
      apply orb_false_iff in EF. destruct EF as (F1 & _). apply Nat.ltb_ge in E.
      apply (C3 F1 c); [specialize (LN c H1); lia|split; assumption].
Qed.
Lemma run_uinv : forall n es s, usteps n uinit es = Some s -> uinv n s.
Proof.
  intros n es s S. assert (I0 : uinv n uinit).
  { split; [reflexivity|]. split; [|exact Logic.I]. intros _ c (H & _). discriminate H. }
  revert S I0. generalize uinit. induction es as [|e r IH]; intros s0 S I0; cbn [usteps] in S. { congruence. }
  destruct (ustep n s0 e) as [s1|] eqn:E; [|discriminate S]. apply (IH s1 S). eapply uinv_step; eauto.
Qed.

(* ---------------- theorems ---------------- *)
Theorem C44_disarm_safe : C44_statement.
Proof.
  intros n es s e s' R S L. pose proof (run_uinv _ _ _ R) as (A & B & C). unfold leaves in L.
  destruct e; cbn [ustep] in S; cbv zeta in S;
    try (match type of S with (if ?b then _ else _) = _ => destruct b; [|discriminate S] end; injection S as <-; cbn in L; congruence);
    try (injection S as <-; cbn in L; congruence).
  - destruct (u_scan s) as [[i f]|]; [|discriminate S]. destruct (Nat.ltb i n); [|discriminate S]. injection S as <-. cbn in L. congruence.
  - destruct (u_scan s) as [[i f]|]; [|discriminate S]. destruct (Nat.ltb i n) eqn:E; [discriminate S|].
    destruct (f || u_ext s) eqn:EF; injection S as <-; [cbn in L; congruence|].
    apply orb_false_iff in EF. destruct EF as (F1 & F2). destruct C as (C1 & C2 & C3). split; [|split; assumption].
    intros c (H1 & H2). apply Nat.ltb_ge in E. apply (C3 F1 c); [|split; assumption].
    destruct (Nat.lt_ge_cases c n); [lia|]. rewrite A in H1 by assumption. discriminate.
Qed.
(* and as long as the host has not joined the lockspace again, no process gets a lease
   in it *)
Theorem C44_stays_safe : forall n es s, usteps n uinit es = Some s -> u_present s = false -> forall c, ~ holds s c.
Proof. intros n es s R P. destruct (run_uinv _ _ _ R) as (_ & B & _). exact (B P). Qed.
(* once pids are being killed, no process gets a further lease *)
Theorem C44_no_new_lease : forall n es s e s' c, usteps n uinit es = Some s -> u_present s = true -> u_killing s = true ->
  ustep n s e = Some s' -> holds s' c -> holds s c.
Proof.
  intros n es s e s' c R P K S H. destruct H as (H1 & H2). unfold holds.
  destruct e as [hid gen|d|d|d|d|d f|d|d|b| | | |]; cbn [ustep] in S; cbv zeta in S; rewrite ?P, ?K in S; cbn [negb] in S;
    rewrite ?andb_false_r in S; cbn [andb] in S; try discriminate S.
  - destruct (_ && _) in S; [|discriminate S]. injection S as <-. cbn in *. unfold set_cl in *. destruct (Nat.eqb c d); [cbn in *; congruence|auto].
  - injection S as <-. cbn in *. unfold set_cl in *. destruct (Nat.eqb c d) eqn:E; [apply Nat.eqb_eq in E; subst; cbn in *|]; auto.
  - injection S as <-. cbn in *. unfold set_cl in *. destruct (Nat.eqb c d) eqn:E; [apply Nat.eqb_eq in E; subst; cbn in *|]; auto.
    split; [exact H1|]. eapply filter_nil; eauto.
  - destruct (_ && _) in S; [|discriminate S]. injection S as <-. cbn in *. unfold set_cl in *. destruct (Nat.eqb c d); [cbn in *; congruence|auto].
  - destruct (negb _) in S; [|discriminate S]. injection S as <-. cbn in *. unfold set_cl in *. destruct (Nat.eqb c d); [cbn in *; congruence|auto].
  - injection S as <-. auto.
  - destruct (_ && _) in S; [|discriminate S]. injection S as <-. auto.
  - destruct (u_scan s) as [[i f]|]; [|discriminate S]. destruct (Nat.ltb i n); [|discriminate S]. injection S as <-. auto.
  - destruct (u_scan s) as [[i f]|]; [|discriminate S]. destruct (Nat.ltb i n); [discriminate S|]. destruct (f || u_ext s); injection S as <-; auto.
Qed.

(* ---------------- hypotheses can be met ---------------- *)
(* two processes get leases; the lockspace fails; one releases, the other is killed;
   only the second look finds the lockspace unused *)
Definition w44 : list uev :=
  [UAdd 1 1; URegister 0; URegister 1; UInfo 0; UInfo 1; ULink 0; ULink 1; UFail;
   UScanStart; UScanNext; URelease 0 (fun _ => true); UScanNext; UScanEnd; UDie 1; UScanStart; UScanNext; UScanNext].
(* the last two observations of a run: whether each step was possible, what was held
   before the last step and the number of times the lockspace was left *)
Definition after (n : nat) (es : list uev) (e : uev) : option (list ltok * nat * nat) :=
  match usteps n uinit es with
  | Some s => match ustep n s e with Some s' => Some (u_toks (u_cl s 1), u_left s, u_left s') | None => None end
  | None => None
  end.
Lemma after_w44 : after 2 w44 UScanEnd = Some ([mkLtok 1 1], 0, 1).
Proof. vm_compute. reflexivity. Qed.
Lemma after_run : forall n es e l a b, after n es e = Some (l, a, b) ->
  exists s s', usteps n uinit es = Some s /\ ustep n s e = Some s' /\ u_left s = a /\ u_left s' = b /\ u_toks (u_cl s 1) = l.
Proof.
  intros n es e l a b A. unfold after in A. destruct (usteps n uinit es) as [s|]; [|discriminate A].
  destruct (ustep n s e) as [s'|] eqn:E; [|discriminate A]. injection A as A1 A2 A3. exists s, s'. auto.
Qed.
Example C44_nonvacuous : exists s s', usteps 2 uinit w44 = Some s /\ ustep 2 s UScanEnd = Some s' /\ leaves s s' /\
  u_toks (u_cl s 1) = [mkLtok 1 1].
Proof.
  destruct (after_run _ _ _ _ _ _ after_w44) as (s & s' & E & E' & A & B & T). exists s, s'.
  unfold leaves. rewrite A, B. auto.
Qed.

Print Assumptions C44_disarm_safe.
Print Assumptions C44_stays_safe.
Print Assumptions C44_no_new_lease.
