(* C66: a host that is being fenced lets its watchdog fire; of two hosts fencing each other exactly one survives *)
From Coq Require Import List ZArith Lia Bool ZifyBool.
From Verif Require Import FenceD.
Import ListNotations.
Open Scope Z_scope.

(* ---- specification ---- *)
Definition no_renewal (new : list fev) : Prop := forall n e, ~ In (ELive n e) new.
Definition ever (s : sig) (ps : list pass) : Prop := exists p, In p ps /\ p_sig p = Some s.

(* once SIGUSR1 (somebody fences us) has been read, the connection to wdmd is not renewed any more *)
Definition C66_statement : Prop := forall our f p ps, f_ended f = false -> p_sig p = Some SUsr1 ->
  exists new, f_log (fpasses our f (p :: ps)) = new ++ f_log f /\ no_renewal new.

(* a signal count in a list of passes *)
Definition count (s : sig) (ps : list pass) : nat :=
  length (filter (fun p => match p_sig p, s with
     | Some SHup, SHup => true | Some STerm, STerm => true | Some SUsr1, SUsr1 => true | Some SUsr2, SUsr2 => true
     | _, _ => false end) ps).
(* host our is fencing host v, and only v, all the time; it learns that it is being fenced, and that it fences *)
Definition duelling (v : Z) (ps : list pass) : Prop :=
  (1 <= count SUsr1 ps)%nat /\ (1 <= count SUsr2 ps)%nat /\ count SHup ps = O /\ count STerm ps = O /\
  forall p, In p ps -> p_agent p = Some v /\ p_agent2 p = Some v.
(* two hosts fencing each other: one dies, one survives *)
Definition C66_duel_statement : Prop := forall a b t u ps qs, a <> b -> duelling b ps -> duelling a qs ->
  f_victim (fpasses a (fstart t) ps) = negb (f_victim (fpasses b (fstart u) qs)).

(* the passes come no later than poll lets them *)
Fixpoint paced (our : Z) (f : fst_) (now : Z) (ps : list pass) : Prop :=
  match ps with
  | [] => True
  | p :: ps => now <= p_now p <= now + ftimeout f now /\ paced our (fpass our f p) (p_now p) ps
  end.
(* lines 889-914: each renewal comes at least 10 seconds before the previous one expires *)
Fixpoint margin (m : Z) (l : list fev) : Prop :=
  match l with
  | ELive n e :: ((ELive n' e' :: _) as r) => n + m <= e' /\ margin m r
  | _ :: r => margin m r
  | [] => True
  end.
Definition C66_margin_statement : Prop := forall our t ps, paced our (fstart t) t ps -> margin 10 (f_log (fpasses our (fstart t) ps)).

(* ---- proofs ---- *)
Lemma no_nil : no_renewal [].
Proof. intros n e []. Qed.

(* a victim stays one, unless it finds an agent of its own that fences a higher host id *)
Lemma victim_quiet our ps : forall f, f_victim f = true ->
  (forall p v, In p ps -> p_agent p = Some v -> v <= our) ->
  exists new, f_log (fpasses our f ps) = new ++ f_log f /\ no_renewal new.
Proof.
  induction ps as [|p ps IH]; intros f V A; [exists []; split; [reflexivity|apply no_nil]|].
  cbn [fpasses fold_left].
  assert (S : exists new, f_log (fpass our f p) = new ++ f_log f /\ no_renewal new /\ f_victim (fpass our f p) = true).
  { unfold fpass. destruct (f_ended f); [exists []; split; [reflexivity|split; [apply no_nil|exact V]]|].
    assert (V2 : f_victim (take_sig f (p_sig p)) = true) by (destruct (p_sig p) as [[]|]; cbn; auto).
    assert (L2 : f_log (take_sig f (p_sig p)) = f_log f) by (destruct (p_sig p) as [[]|]; reflexivity).
    set (g := take_sig f (p_sig p)) in *. destruct (f_shutdown g).
    - exists [EClear (p_now p)]. cbn. rewrite L2. split; [reflexivity|]. split; [intros n e [C|[]]; discriminate|exact V2].
    - assert (D : fst (duel our (p_agent p) (f_victim g) (f_fencing g)) = true).
      { unfold duel. rewrite V2. destruct (f_fencing g); [cbn [andb]|reflexivity]. destruct (p_agent p) as [v|] eqn:EA; [|reflexivity].
        assert (LE := A p v (or_introl eq_refl) EA). replace (our <? v) with false by (symmetry; apply Z.ltb_ge; lia). reflexivity. }
      destruct (duel our (p_agent p) (f_victim g) (f_fencing g)) as [vi fe]. cbn [fst] in D. subst vi. cbn [negb andb].
      exists []. cbn. rewrite L2. split; [reflexivity|]. split; [apply no_nil|reflexivity]. }
  destruct S as (n1 & E1 & Q1 & V1). destruct (IH (fpass our f p) V1 ltac:(intros q v I; apply A; right; exact I)) as (n2 & E2 & Q2).
  exists (n2 ++ n1). split; [unfold fpasses in E2; rewrite E2, E1, app_assoc; reflexivity|].
  intros n e I. apply in_app_or in I. destruct I as [I|I]; [exact (Q2 n e I)|exact (Q1 n e I)].
Qed.

Theorem C66_partial : forall our f p ps, f_ended f = false -> p_sig p = Some SUsr1 ->
  (forall q v, In q (p :: ps) -> p_agent q = Some v -> v <= our) ->
  exists new, f_log (fpasses our f (p :: ps)) = new ++ f_log f /\ no_renewal new.
Proof.
  intros our f p ps E S A.
  (* the signal is read before anything else in the pass *)
  set (g := take_sig f (Some SUsr1)). set (q := mkP None (p_now p) (p_agent p) (p_agent2 p)).
  assert (EQ : fpass our f p = fpass our g q) by (unfold fpass, g, q; rewrite E, S; cbn; rewrite E; reflexivity).
  assert (EQ2 : fpasses our f (p :: ps) = fpasses our g (q :: ps)) by (unfold fpasses; cbn [fold_left]; rewrite EQ; reflexivity).
  rewrite EQ2. change (f_log f) with (f_log g). apply victim_quiet; [reflexivity|].
  intros r v [<-|I] AG; [apply (A p v (or_introl eq_refl)); exact AG|apply (A r v (or_intror I) AG)].
Qed.

(* a host whose lockspace failed (SIGTERM) never renews again *)
Lemma recovery_quiet our ps : forall f, f_recovery f = true ->
  exists new, f_log (fpasses our f ps) = new ++ f_log f /\ no_renewal new.
Proof.
  induction ps as [|p ps IH]; intros f V; [exists []; split; [reflexivity|apply no_nil]|].
  cbn [fpasses fold_left].
  assert (S : exists new, f_log (fpass our f p) = new ++ f_log f /\ no_renewal new /\ f_recovery (fpass our f p) = true).
  { unfold fpass. destruct (f_ended f); [exists []; split; [reflexivity|split; [apply no_nil|exact V]]|].
    assert (V2 : f_recovery (take_sig f (p_sig p)) = true) by (destruct (p_sig p) as [[]|]; cbn; auto).
    assert (L2 : f_log (take_sig f (p_sig p)) = f_log f) by (destruct (p_sig p) as [[]|]; reflexivity).
    set (g := take_sig f (p_sig p)) in *. destruct (f_shutdown g).
    - exists [EClear (p_now p)]. cbn. rewrite L2. split; [reflexivity|]. split; [intros n e [C|[]]; discriminate|exact V2].
    - destruct (duel our (p_agent p) (f_victim g) (f_fencing g)) as [vi fe]. rewrite V2. cbn [negb]. rewrite andb_false_r. cbn [andb].
      exists []. cbn. rewrite L2. split; [reflexivity|]. split; [apply no_nil|reflexivity]. }
  destruct S as (n1 & E1 & Q1 & V1). destruct (IH (fpass our f p) V1) as (n2 & E2 & Q2).
  exists (n2 ++ n1). split; [unfold fpasses in E2; rewrite E2, E1, app_assoc; reflexivity|].
  intros n e I. apply in_app_or in I. destruct I as [I|I]; [exact (Q2 n e I)|exact (Q1 n e I)].
Qed.
Theorem C66_lockspace_failed : forall our f p ps, f_ended f = false -> p_sig p = Some STerm ->
  exists new, f_log (fpasses our f (p :: ps)) = new ++ f_log f /\ no_renewal new.
Proof.
  intros our f p ps E S. set (g := take_sig f (Some STerm)). set (q := mkP None (p_now p) (p_agent p) (p_agent2 p)).
  assert (EQ : fpass our f p = fpass our g q) by (unfold fpass, g, q; rewrite E, S; cbn; rewrite E; reflexivity).
  assert (EQ2 : fpasses our f (p :: ps) = fpasses our g (q :: ps)) by (unfold fpasses; cbn [fold_left]; rewrite EQ; reflexivity).
  rewrite EQ2. change (f_log f) with (f_log g). apply recovery_quiet. reflexivity.
Qed.

(* ---- the duel: one of each signal ---- *)
(* victim and fencing after the signals so far *)
Definition duel_end (our v : Z) (u1 u2 : nat) : bool * bool :=
  match u1, u2 with
  | O, O => (false, false)
  | S O, O => (true, false)
  | O, S O => (false, true)
  | _, _ => (negb (our <? v), false)
  end.
Lemma duel_run our v ps : forall f u1 u2,
  (forall p, In p ps -> p_agent p = Some v /\ p_agent2 p = Some v) ->
  count SHup ps = O -> count STerm ps = O -> (u1 + count SUsr1 ps <= 1)%nat -> (u2 + count SUsr2 ps <= 1)%nat ->
  f_ended f = false -> f_shutdown f = false -> (f_victim f, f_fencing f) = duel_end our v u1 u2 ->
  (f_victim (fpasses our f ps), f_fencing (fpasses our f ps)) = duel_end our v (u1 + count SUsr1 ps) (u2 + count SUsr2 ps).
Proof.
  induction ps as [|p ps IH]; intros f u1 u2 A H1 H2 C1 C2 E SH V.
  - unfold count. cbn. rewrite !Nat.add_0_r. exact V.
  - cbn [fpasses fold_left]. destruct (A p (or_introl eq_refl)) as [A1 A2].
    assert (IH' := IH (fpass our f p)). clear IH.
    set (d1 := match p_sig p with Some SUsr1 => 1%nat | _ => O end). set (d2 := match p_sig p with Some SUsr2 => 1%nat | _ => O end).
    assert (N1 : count SUsr1 (p :: ps) = (d1 + count SUsr1 ps)%nat) by (unfold count, d1; cbn [filter]; destruct (p_sig p) as [[]|]; reflexivity).
    assert (N2 : count SUsr2 (p :: ps) = (d2 + count SUsr2 ps)%nat) by (unfold count, d2; cbn [filter]; destruct (p_sig p) as [[]|]; reflexivity).
    assert (NH : p_sig p <> Some SHup /\ count SHup ps = O) by (unfold count in *; cbn [filter] in H1; destruct (p_sig p) as [[]|]; cbn in H1; split; congruence).
    assert (NT : p_sig p <> Some STerm /\ count STerm ps = O) by (unfold count in *; cbn [filter] in H2; destruct (p_sig p) as [[]|]; cbn in H2; split; congruence).
    rewrite N1, N2 in *. rewrite !Nat.add_assoc.
    apply IH'; [intros q I; apply A; right; exact I|apply NH|apply NT|lia|lia| | |].
    + unfold fpass. rewrite E. replace (f_shutdown (take_sig f (p_sig p))) with false by (destruct NH as [NH _]; destruct (p_sig p) as [[]|]; cbn; congruence).
      destruct (duel our (p_agent p) (f_victim (take_sig f (p_sig p))) (f_fencing (take_sig f (p_sig p)))) as [vi fe].
      match goal with |- context [if ?c then _ else _] => destruct c end; reflexivity.
    + unfold fpass. rewrite E. replace (f_shutdown (take_sig f (p_sig p))) with false by (destruct NH as [NH _]; destruct (p_sig p) as [[]|]; cbn; congruence).
      destruct (duel our (p_agent p) (f_victim (take_sig f (p_sig p))) (f_fencing (take_sig f (p_sig p)))) as [vi fe].
      match goal with |- context [if ?c then _ else _] => destruct c end; reflexivity.
    + unfold fpass. rewrite E. replace (f_shutdown (take_sig f (p_sig p))) with false by (destruct NH as [NH _]; destruct (p_sig p) as [[]|]; cbn; congruence).
      rewrite A1, A2.
      assert (G : (let '(vi, fe) := duel our (Some v) (f_victim (take_sig f (p_sig p))) (f_fencing (take_sig f (p_sig p))) in (vi, fence_over (Some v) vi fe)) =
                  duel_end our v (u1 + d1) (u2 + d2)).
      { assert (F1 : f_victim f = fst (duel_end our v u1 u2)) by (rewrite <- V; reflexivity).
        assert (F2 : f_fencing f = snd (duel_end our v u1 u2)) by (rewrite <- V; reflexivity).
        assert (U1 : (u1 = 0 \/ u1 = 1)%nat) by lia. assert (U2 : (u2 = 0 \/ u2 = 1)%nat) by lia.
        unfold d1, d2 in *. destruct NH as [NH _], NT as [NT _].
        destruct U1, U2; subst u1 u2; destruct (p_sig p) as [[]|]; try congruence; try (exfalso; lia);
          cbn [take_sig f_victim f_fencing Nat.add]; rewrite ?F1, ?F2; cbn [duel_end fst snd]; unfold duel, fence_over;
          cbn [andb negb]; destruct (our <? v); reflexivity. }
      destruct (duel our (Some v) (f_victim (take_sig f (p_sig p))) (f_fencing (take_sig f (p_sig p)))) as [vi fe].
      rewrite <- G. match goal with |- context [if ?c then _ else _] => destruct c end; reflexivity.
Qed.

(* What is missing: each of the two signals comes once only. *)
Theorem C66_duel_partial : forall a b t u ps qs, a <> b -> duelling b ps -> duelling a qs ->
  count SUsr1 ps = 1%nat -> count SUsr2 ps = 1%nat -> count SUsr1 qs = 1%nat -> count SUsr2 qs = 1%nat ->
  f_victim (fpasses a (fstart t) ps) = negb (f_victim (fpasses b (fstart u) qs)) /\
  (f_victim (fpasses a (fstart t) ps) = false <-> a < b).
Proof.
  intros a b t u ps qs NE (_ & _ & H1 & T1 & A1) (_ & _ & H2 & T2 & A2) P1 P2 Q1 Q2.
  assert (R1 := duel_run a b ps (fstart t) 0 0 A1 H1 T1 ltac:(lia) ltac:(lia) eq_refl eq_refl eq_refl).
  assert (R2 := duel_run b a qs (fstart u) 0 0 A2 H2 T2 ltac:(lia) ltac:(lia) eq_refl eq_refl eq_refl).
  rewrite P1, P2 in R1. rewrite Q1, Q2 in R2. cbn [Nat.add duel_end] in R1, R2. assert (V1 := f_equal fst R1). assert (V2 := f_equal fst R2). cbn [fst] in V1, V2.
  rewrite V1, V2. destruct (a <? b) eqn:E1, (b <? a) eqn:E2; cbn; split; try reflexivity; try lia; split; intros; try lia; try discriminate; reflexivity.
Qed.

(* ---- the margin ---- *)
(* the newest renewal in the log is the one at live_time, unless the daemon has shut down *)
Definition Top (f : fst_) : Prop := f_ended f = false -> exists r, f_log f = ELive (f_live f) (f_live f + 20) :: r.

Lemma margin_cons_clear m n l : margin m l -> margin m (EClear n :: l).
Proof. intros H. exact H. Qed.

Lemma gap (fl : bool) live now pn m : now - live < 5 ->
  pn <= now + (if fl then 10 else let s := live + 5 - now in if 0 <? s then s else 1) ->
  m <= 6 \/ (m <= 15 /\ fl = false) -> pn - live <= 20 - m.
Proof.
  intros H1 H2 H3. destruct fl; [destruct H3 as [H3|[_ H3]]; [lia|discriminate]|]. cbn zeta in H2.
  replace (0 <? live + 5 - now) with true in H2 by (symmetry; apply Z.ltb_lt; lia). lia.
Qed.

Lemma margin_run our m ps : forall f now,
  Top f -> margin m (f_log f) -> f_live f <= now -> (f_victim f = false -> f_recovery f = false -> now - f_live f < 5) ->
  paced our f now ps ->
  (* how long a renewal can be away *)
  (m <= 6 \/ (m <= 15 /\ f_victim f = false /\ f_recovery f = false /\ f_fencing f = false /\
              forall p, In p ps -> p_sig p = None \/ p_sig p = Some SHup)) ->
  (forall p v, In p ps -> p_agent p = Some v -> v <= our) ->
  margin m (f_log (fpasses our f ps)).
Proof.
  induction ps as [|p ps IH]; intros f now TP MG LN NOW PC CASE AG; [exact MG|].
  cbn [fpasses fold_left]. cbn [paced] in PC. destruct PC as [PT PC].
  destruct (f_ended f) eqn:EE.
  { (* over *)
    assert (FP : fpass our f p = f) by (unfold fpass; rewrite EE; reflexivity). rewrite FP in *.
    assert (ALL : forall qs, fold_left (fpass our) qs f = f).
    { induction qs as [|q qs IHq]; [reflexivity|]. cbn [fold_left]. unfold fpass at 2. rewrite EE. exact IHq. }
    rewrite ALL. exact MG. }
  destruct (TP EE) as (r & EL).
  set (g := take_sig f (p_sig p)).
  assert (GL : f_log g = f_log f /\ f_live g = f_live f) by (unfold g; destruct (p_sig p) as [[]|]; split; reflexivity).
  destruct GL as [GL GV].
  assert (AG' : forall q v, In q ps -> p_agent q = Some v -> v <= our) by (intros q v I; apply AG; right; exact I).
  destruct (f_shutdown g) eqn:ES.
  { assert (FP : fpass our f p = mkF true (f_recovery g) (f_victim g) (f_fencing g) (f_live g) true (EClear (p_now p) :: f_log g))
      by (unfold fpass; rewrite EE; fold g; rewrite ES; reflexivity).
    rewrite FP.
    assert (ALL : forall qs f', f_ended f' = true -> fold_left (fpass our) qs f' = f').
    { induction qs as [|q qs IHq]; intros f' E'; [reflexivity|]. cbn [fold_left]. unfold fpass at 2. rewrite E'. apply IHq. exact E'. }
    rewrite ALL by reflexivity. cbn [f_log]. apply margin_cons_clear. rewrite GL. exact MG. }
  destruct (duel our (p_agent p) (f_victim g) (f_fencing g)) as [vi fe] eqn:ED.
  assert (VI : f_victim g = true -> vi = true).
  { intros V. unfold duel in ED. rewrite V in ED. destruct (f_fencing g); cbn [andb] in ED; [|inversion ED; reflexivity].
    destruct (p_agent p) as [v|] eqn:EA; [|inversion ED; reflexivity].
    assert (LE := AG p v (or_introl eq_refl) EA). replace (our <? v) with false in ED by (symmetry; apply Z.ltb_ge; lia). inversion ED; reflexivity. }
  assert (VI2 : f_victim g = false -> vi = false /\ fe = f_fencing g) by (intros V; unfold duel in ED; rewrite V in ED; cbn in ED; inversion ED; auto).
  assert (VF : f_victim f = true -> f_victim g = true) by (unfold g; destruct (p_sig p) as [[]|]; cbn; auto).
  assert (RF : f_recovery f = true -> f_recovery g = true) by (unfold g; destruct (p_sig p) as [[]|]; cbn; auto).
  set (fe2 := fence_over (p_agent2 p) vi fe).
  assert (FP : fpass our f p =
     if negb vi && negb (f_recovery g) && (5 <=? p_now p - f_live f)
     then mkF false (f_recovery g) vi fe2 (p_now p) false (ELive (p_now p) (p_now p + 20) :: f_log f)
     else mkF false (f_recovery g) vi fe2 (f_live f) false (f_log f)).
  { unfold fpass. rewrite EE. fold g. rewrite ES, ED. fold fe2. rewrite GL, GV. reflexivity. }
  assert (QUIET : m <= 6 \/ (m <= 15 /\ vi = false /\ f_recovery g = false /\ fe2 = false /\
              forall p, In p ps -> p_sig p = None \/ p_sig p = Some SHup)).
  { destruct CASE as [C|(C1 & C2 & C3 & C4 & C5)]; [left; exact C|right].
    assert (NS : p_sig p = None).
    { destruct (C5 p (or_introl eq_refl)) as [N|N]; [exact N|]. unfold g in ES. rewrite N in ES. discriminate. }
    assert (GF : g = f) by (unfold g; rewrite NS; reflexivity). rewrite GF in *.
    destruct (VI2 C2) as [-> ->]. split; [exact C1|]. split; [reflexivity|]. split; [exact C3|].
    split; [unfold fe2, fence_over; rewrite C4; reflexivity|]. intros q I. apply C5. right; exact I. }
  destruct (negb vi && negb (f_recovery g) && (5 <=? p_now p - f_live f)) eqn:EB.
  - (* renewed *)
    apply andb_prop in EB. destruct EB as [EB E5]. apply andb_prop in EB. destruct EB as [EV ER].
    apply negb_true_iff in EV, ER.
    assert (VFF : f_victim f = false) by (destruct (f_victim f); [rewrite (VI (VF eq_refl)) in EV; discriminate|reflexivity]).
    assert (RFF : f_recovery f = false) by (destruct (f_recovery f); [rewrite (RF eq_refl) in ER; discriminate|reflexivity]).
    assert (N5 := NOW VFF RFF).
    assert (GAP : p_now p - f_live f <= 20 - m).
    { unfold ftimeout in PT. rewrite VFF, RFF in PT. cbn [orb] in PT. unfold LIVE_INTERVAL in PT.
      apply (gap (f_fencing f) (f_live f) now (p_now p) m N5 (proj2 PT)).
      destruct CASE as [C|(C1 & C2 & C3 & C4 & C5)]; [left; exact C|right; split; assumption]. }
    unfold fpasses in IH. rewrite FP in PC |- *. apply (IH _ (p_now p)); cbn [f_victim f_recovery f_fencing f_live f_log f_ended]; auto.
    + intros _. cbn. eexists. reflexivity.
    + rewrite EL. cbn [margin]. rewrite EL in MG. split; [clear -GAP; lia|exact MG].
    + apply Z.le_refl.
    + intros; rewrite Z.sub_diag; reflexivity.
  - unfold fpasses in IH. rewrite FP in PC |- *. apply (IH _ (p_now p)); cbn [f_victim f_recovery f_fencing f_live f_log f_ended]; auto.
    + intros _. cbn [f_log f_live]. exists r. exact EL.
    + clear -LN PT; lia.
    + intros V0 RG. rewrite V0, RG in EB. cbn [negb andb] in EB. apply Z.leb_gt in EB. exact EB.
Qed.

(* a host that is neither fenced nor fencing renews 15 seconds before the expiry *)
Theorem C66_margin_quiet : forall our t ps, (forall p, In p ps -> p_sig p = None \/ p_sig p = Some SHup) ->
  (forall p v, In p ps -> p_agent p = Some v -> v <= our) ->
  paced our (fstart t) t ps -> margin 15 (f_log (fpasses our (fstart t) ps)).
Proof.
  intros our t ps S AG PC. apply (margin_run our 15 ps (fstart t) t); auto.
  - intros _. exists []. reflexivity.
  - cbn. exact I.
  - cbn. lia.
  - cbn. intros; lia.
  - right. cbn. repeat split; try lia; auto.
Qed.
(* in general, as long as it wins no duel, 6 seconds before *)
Theorem C66_margin_partial : forall our t ps, (forall p v, In p ps -> p_agent p = Some v -> v <= our) ->
  paced our (fstart t) t ps -> margin 6 (f_log (fpasses our (fstart t) ps)).
Proof.
  intros our t ps AG PC. apply (margin_run our 6 ps (fstart t) t); auto.
  - intros _. exists []. reflexivity.
  - cbn. exact I.
  - cbn. lia.
  - cbn. intros; lia.
  - left. lia.
Qed.

(* ---- refutations ---- *)
(* Host 1 fences host 2 while host 3 fences host 1: host 1 takes this for a duel with host 2, wins it, and goes
   on; host 3 waits for ever. *)
Theorem C66_refuted : ~ C66_statement.
Proof.
  intros H. set (f := fpasses 1 (fstart 0) [mkP (Some SUsr2) 4 (Some 2) (Some 2)]).
  destruct (H 1 f (mkP (Some SUsr1) 9 (Some 2) (Some 2)) [] eq_refl eq_refl) as (new & E & N).
  assert (E' : [ELive 9 29; ELive 0 20] = new ++ [ELive 0 20]) by exact E.
  destruct new as [|e new]; [discriminate|]. inversion E'; subst. apply (N 9 29). left. reflexivity.
Qed.

(* The request is read again (it is not cleared): the winner, which has forgotten that it is fencing, gives up too. *)
Theorem C66_duel_refuted : ~ C66_duel_statement.
Proof.
  intros H. set (w := fun s t v => mkP s t (Some v) (Some v)).
  assert (D : f_victim (fpasses 1 (fstart 0) [w (Some SUsr2) 1 2; w (Some SUsr1) 2 2; w (Some SUsr1) 60 2]) =
              negb (f_victim (fpasses 2 (fstart 0) [w (Some SUsr2) 1 1; w (Some SUsr1) 2 1]))).
  { apply H; [lia| |].
    - unfold duelling. repeat split; try (cbn; lia); destruct H0 as [<-|[<-|[<-|[]]]]; reflexivity.
    - unfold duelling. repeat split; try (cbn; lia); destruct H0 as [<-|[<-|[]]]; reflexivity. }
  vm_compute in D. discriminate.
Qed.

(* While it fences, the daemon sleeps 10 seconds: the renewal comes 6 seconds before the expiry. *)
Theorem C66_margin_refuted : ~ C66_margin_statement.
Proof.
  intros H. specialize (H 5 0 [mkP (Some SUsr2) 4 (Some 3) (Some 3); mkP None 14 (Some 3) (Some 3)]).
  assert (M : margin 10 (f_log (fpasses 5 (fstart 0) [mkP (Some SUsr2) 4 (Some 3) (Some 3); mkP None 14 (Some 3) (Some 3)]))).
  { apply H. cbn [paced]. vm_compute. repeat split; discriminate. }
  vm_compute in M. destruct M as [M _]. apply M. reflexivity.
Qed.

(* ---- the hypotheses are met ---- *)
Example C66_nonvacuous :
  let w := fun s t v => mkP s t (Some v) (Some v) in
  duelling 2 [w (Some SUsr2) 1 2; w (Some SUsr1) 2 2] /\ duelling 1 [w (Some SUsr1) 1 1; w None 3 1; w (Some SUsr2) 7 1] /\
  f_victim (fpasses 1 (fstart 0) [w (Some SUsr2) 1 2; w (Some SUsr1) 2 2]) = false /\
  f_victim (fpasses 2 (fstart 0) [w (Some SUsr1) 1 1; w None 3 1; w (Some SUsr2) 7 1]) = true /\
  paced 5 (fstart 0) 0 [mkP None 5 None None; mkP None 10 None None] /\
  f_log (fpasses 5 (fstart 0) [mkP None 5 None None; mkP None 10 None None]) = [ELive 10 30; ELive 5 25; ELive 0 20].
Proof.
  cbn zeta. split; [|split; [|split; [vm_compute; reflexivity|split; [vm_compute; reflexivity|split; [|vm_compute; reflexivity]]]]].
  - unfold duelling. split; [cbn; lia|]. split; [cbn; lia|]. split; [reflexivity|]. split; [reflexivity|].
    intros p [<-|[<-|[]]]; split; reflexivity.
  - unfold duelling. split; [cbn; lia|]. split; [cbn; lia|]. split; [reflexivity|]. split; [reflexivity|].
    intros p [<-|[<-|[<-|[]]]]; split; reflexivity.
  - vm_compute. repeat split; discriminate.
Qed.

Print Assumptions C66_partial.
Print Assumptions C66_lockspace_failed.
Print Assumptions C66_duel_partial.
Print Assumptions C66_margin_quiet.
Print Assumptions C66_margin_partial.
Print Assumptions C66_refuted.
Print Assumptions C66_duel_refuted.
Print Assumptions C66_margin_refuted.
