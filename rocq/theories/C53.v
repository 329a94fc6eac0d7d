(* C53: a lease handed to a process was acquired in the current membership of its
   lockspace. *)
From Coq Require Import List Arith Lia Bool.
From Verif Require Import SpaceUse C44.
Import ListNotations.

(* ---------------- specification ---------------- *)
(* the host id and generation another host sees in the lease are those this host is
   renewing *)
Definition current (s : ust) (t : ltok) : Prop := lt_hid t = u_hid s /\ lt_gen t = u_gen s.
Definition C53_statement : Prop := forall n es s c t,
  usteps n uinit es = Some s -> u_live (u_cl s c) = true -> In t (u_toks (u_cl s c)) -> current s t.
(* no generation of the lockspace reuses a host id this host had in it before *)
Definition add_hids (es : list uev) : list nat := flat_map (fun e => match e with UAdd h _ => [h] | _ => [] end) es.

(* ---------------- the partial statement ---------------- *)
(* every token ever made has a (host id, generation) with which the lockspace was
   added; with distinct host ids the host id determines the generation *)
Definition added (h : list (nat * nat)) (t : ltok) : Prop := In (lt_hid t, lt_gen t) h.
Definition jinv (h : list (nat * nat)) (s : ust) : Prop :=
  (u_present s = true -> In (u_hid s, u_gen s) h) /\
  (forall c t, In t (u_work (u_cl s c)) -> added h t) /\
  (forall c t, u_live (u_cl s c) = true -> In t (u_toks (u_cl s c)) -> current s t).
Definition adds (es : list uev) : list (nat * nat) := flat_map (fun e => match e with UAdd h g => [(h, g)] | _ => [] end) es.

Lemma jinv_upd : forall h s c x, jinv h s ->
  (forall t, In t (u_work x) -> added h t) ->
  (u_live x = true -> forall t, In t (u_toks x) -> current s t) ->
  jinv h (upd s c x).
Proof.
  intros h s c x (A & B & C) W T. split; [exact A|]. split.
  - intros d t. cbn. unfold set_cl. destruct (Nat.eqb d c); [apply W|apply B].
  - intros d t. cbn. unfold set_cl. destruct (Nat.eqb d c); [|apply C]. intros L. apply T. exact L.
Qed.
Lemma nodup_fst : forall (h : list (nat * nat)) a b c, NoDup (map fst h) -> In (a, b) h -> In (a, c) h -> b = c.
Proof.
  induction h as [|[x y] r IH]; intros a b c N I J; [contradiction|]. inversion N as [|? ? N1 N2]; subst.
  destruct I as [I|I], J as [J|J]; try congruence; try (eapply IH; eauto; fail).
  - injection I as <- <-. exfalso. apply N1. apply in_map_iff. exists (x, c). auto.
  - injection J as <- <-. exfalso. apply N1. apply in_map_iff. exists (x, b). auto.
Qed.

Lemma jinv_step : forall n h s e s', uinv n s -> NoDup (map fst h) -> jinv h s -> ustep n s e = Some s' ->
  (forall a b, In (a, b) (adds [e]) -> In (a, b) h) -> jinv h s'.
Proof.
  intros n h s e s' U N J S AD. assert (J0 := J). destruct J as (A & B & C). destruct U as (_ & U2 & _).
  destruct e as [hid gen|c|c|c|c|c f|c|c|b| | | |]; cbn [ustep] in S; cbv zeta in S.
  - destruct (no_scan s && negb (u_present s) && Nat.ltb (u_gen s) gen) eqn:E; [|discriminate S]. injection S as <-.
    split; [intros _; cbn; apply AD; cbn; auto|]. split; [exact B|]. cbn. intros c t L I. exfalso.
    assert (P : u_present s = false) by (destruct (u_present s); [cbn in E; rewrite andb_false_r in E; discriminate E|reflexivity]).
    apply (U2 P c). split; [exact L|]. intros X. rewrite X in I. contradiction.
  - destruct (_ && _) in S; [|discriminate S]. injection S as <-. apply jinv_upd; cbn; auto; contradiction.
  - destruct (no_scan s && u_present s && negb (u_killing s) && u_live (u_cl s c)) eqn:E; [|discriminate S]. injection S as <-. apply jinv_upd; cbn; auto.
    + intros t [<-|I]; [|eauto]. unfold added. cbn. apply A.
      destruct (u_present s); [reflexivity|rewrite andb_false_r in E; discriminate E].
    + intros L t I. eapply C; eauto.
  - destruct (_ && _) eqn:E in S; [|discriminate S]. injection S as <-.
    repeat (apply andb_true_iff in E; destruct E as (E & ?)). apply jinv_upd; cbn; auto; [contradiction|].
    intros _ t I. apply in_app_or in I. destruct I as [I|I]; [eapply C; eauto|].
    assert (Hh : lt_hid t = u_hid s). { match goal with H : forallb _ _ = true |- _ => rewrite forallb_forall in H; specialize (H t I); apply Nat.eqb_eq in H; exact H end. }
    split; [exact Hh|]. pose proof (B c t I) as Ad. unfold added in Ad. rewrite Hh in Ad.
    eapply nodup_fst; eauto.
  - injection S as <-. apply jinv_upd; cbn; auto; [contradiction|]. intros L t I. eapply C; eauto.
  - injection S as <-. apply jinv_upd; cbn; auto; [intros t I; eapply B; eauto|]. intros L t I. apply filter_In in I. eapply C; [exact L|apply I].
  - destruct (_ && _) in S; [|discriminate S]. injection S as <-. apply jinv_upd; cbn; auto; [intros t I; eapply B; eauto|discriminate].
  - destruct (negb _) in S; [|discriminate S]. injection S as <-. apply jinv_upd; cbn; auto; [contradiction|discriminate].
  - injection S as <-. exact J0.
  - destruct (no_scan s && u_present s && negb (u_killing s)) eqn:E in S; [|discriminate S]. injection S as <-. split; [|split; [exact B|exact C]].
    intros _. cbn. apply A. destruct (u_present s); [reflexivity|rewrite andb_false_r in E; discriminate E].
  - destruct (_ && _) in S; [|discriminate S]. injection S as <-. exact J0.
  - destruct (u_scan s) as [[i f]|]; [|discriminate S]. destruct (Nat.ltb i n); [|discriminate S]. injection S as <-. exact J0.
  - destruct (u_scan s) as [[i f]|]; [|discriminate S]. destruct (Nat.ltb i n); [discriminate S|]. destruct (f || u_ext s); injection S as <-; [exact J0|].
    split; [discriminate|]. split; [exact B|exact C].
Qed.

(* If the host never comes back to the lockspace with a host id it had there before,
   every lease handed out is current. *)
Theorem C53_current_partial : forall n es s c t,
  NoDup (add_hids es) -> usteps n uinit es = Some s -> u_live (u_cl s c) = true -> In t (u_toks (u_cl s c)) -> current s t.
Proof.
  intros n es s c t N R L I.
  assert (E : map fst (adds es) = add_hids es).
  { clear. unfold adds, add_hids. induction es as [|e r IH]; [reflexivity|]. cbn [flat_map]. rewrite map_app, IH.
    destruct e; reflexivity. }
  assert (G : forall es' s0, (forall p, In p (adds es') -> In p (adds es)) -> uinv n s0 -> jinv (adds es) s0 -> usteps n s0 es' = Some s -> jinv (adds es) s).
  { induction es' as [|e r IH]; intros s0 IN U J S; cbn [usteps] in S. { congruence. }
    destruct (ustep n s0 e) as [s1|] eqn:ES; [|discriminate S]. apply (IH s1); auto.
    - intros p P. apply IN. cbn. apply in_or_app. right. exact P.
    - eapply uinv_step; eauto.
    - eapply jinv_step; eauto. { rewrite E. exact N. }
      intros a b P. apply IN. cbn. apply in_or_app. left. cbn in P. rewrite app_nil_r in P. exact P. }
  assert (U0 : uinv n uinit) by (apply (run_uinv n [] uinit); reflexivity).
  assert (J0 : jinv (adds es) uinit) by (split; [discriminate|]; split; [contradiction|contradiction]).
  destruct (G es uinit (fun p P => P) U0 J0 R) as (_ & _ & C). exact (C c t L I).
Qed.

(* The host id of a lease handed out is always the current one. *)
Theorem C53_host_id : forall n es s e s' c t, usteps n uinit es = Some s -> ustep n s e = Some s' ->
  In t (u_toks (u_cl s' c)) -> In t (u_toks (u_cl s c)) \/ lt_hid t = u_hid s'.
Proof.
  intros n es s e s' c t R S I.
  destruct e as [hid gen|d|d|d|d|d f|d|d|b| | | |]; cbn [ustep] in S; cbv zeta in S;
    try (match type of S with (if ?b then _ else _) = _ => destruct b eqn:E; [|discriminate S] end);
    try (injection S as <-; cbn in *; unfold set_cl in *; destruct (Nat.eqb c d) eqn:EC; [apply Nat.eqb_eq in EC; subst d; cbn in *|]; auto; try contradiction; fail);
    try (injection S as <-; auto; fail).
  - injection S as <-. cbn in *. unfold set_cl in *. destruct (Nat.eqb c d) eqn:EC; [|auto]. apply Nat.eqb_eq in EC; subst d; cbn in *.
    apply in_app_or in I. destruct I as [I|I]; [auto|]. right.
    apply andb_true_iff in E. destruct E as (_ & E). rewrite forallb_forall in E. specialize (E t I). apply Nat.eqb_eq in E. exact E.
  - injection S as <-. cbn in *. unfold set_cl in *. destruct (Nat.eqb c d) eqn:EC; [|auto]. apply Nat.eqb_eq in EC; subst d; cbn in *.
    apply filter_In in I. left. apply I.
  - destruct (u_scan s) as [[i f]|]; [|discriminate S]. destruct (Nat.ltb i n); [|discriminate S]. injection S as <-. auto.
  - destruct (u_scan s) as [[i f]|]; [|discriminate S]. destruct (Nat.ltb i n); [discriminate S|]. destruct (f || u_ext s); injection S as <-; auto.
Qed.

(* ---------------- the full statement fails ---------------- *)
(* An acquire is slow; meanwhile the lockspace fails, is removed (nobody holds a lease
   in it yet) and is added again with the same host id, which gets the next
   generation.  Then the acquire ends: check_new_tokens_space compares the host id
   but not the generation, so the process is given a lease that belongs to a
   generation every other host takes for dead. *)
Definition w53 : list uev :=
  [UAdd 1 1; URegister 0; UInfo 0; UFail; UScanStart; UScanNext; UScanEnd; UAdd 1 2; ULink 0].
Definition seen (n : nat) (es : list uev) (c : nat) : option (bool * list ltok * nat * nat) :=
  match usteps n uinit es with Some s => Some (u_live (u_cl s c), u_toks (u_cl s c), u_hid s, u_gen s) | None => None end.
Lemma seen_w53 : seen 1 w53 0 = Some (true, [mkLtok 1 1], 1, 2).
Proof. vm_compute. reflexivity. Qed.
Lemma seen_run : forall n es c l ts h g, seen n es c = Some (l, ts, h, g) ->
  exists s, usteps n uinit es = Some s /\ u_live (u_cl s c) = l /\ u_toks (u_cl s c) = ts /\ u_hid s = h /\ u_gen s = g.
Proof.
  intros n es c l ts h g A. unfold seen in A. destruct (usteps n uinit es) as [s|]; [|discriminate A].
  injection A as A1 A2 A3 A4. exists s. auto.
Qed.
Theorem C53_refuted : ~ C53_statement.
Proof.
  intros H. destruct (seen_run _ _ _ _ _ _ _ seen_w53) as (s & E & A1 & A2 & A3 & A4).
  destruct (H 1 w53 s 0 (mkLtok 1 1) E A1) as (_ & G). { rewrite A2. left. reflexivity. }
  cbn in G. congruence.
Qed.

(* ---------------- hypotheses can be met ---------------- *)
Lemma seen_w44 : seen 2 (firstn 7 w44) 1 = Some (true, [mkLtok 1 1], 1, 1).
Proof. vm_compute. reflexivity. Qed.
Example C53_nonvacuous : exists s, usteps 2 uinit (firstn 7 w44) = Some s /\ NoDup (add_hids (firstn 7 w44)) /\
  u_live (u_cl s 1) = true /\ In (mkLtok 1 1) (u_toks (u_cl s 1)).
Proof.
  destruct (seen_run _ _ _ _ _ _ _ seen_w44) as (s & E & A1 & A2 & A3 & A4). exists s. split; [exact E|].
  split; [repeat constructor; intuition|]. rewrite A2. cbn. auto.
Qed.

Print Assumptions C53_current_partial.
Print Assumptions C53_host_id.
Print Assumptions C53_refuted.
