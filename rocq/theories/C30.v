(* C30: an acquire with the orphan-only flag either adopts an existing orphan of the
   resource or fails with no-entry; it never acquires a fresh lease from disk. *)
From Coq Require Import List NArith Lia Bool Arith.
From Verif Require Import Resources.
Import ListNotations.
Open Scope N_scope.

(* a fresh lease: the acquire goes on to the disk (resources_add) *)
Definition goes_to_disk (rs : list res) (k : N) (sh : bool) (flags : N) : Prop :=
  decide rs k sh flags = DCreate.

Definition C30_statement : Prop :=
  forall rs k sh flags, has flags ACQUIRE_ORPHAN_ONLY = true -> ~ goes_to_disk rs k sh flags.

(* SANLK_ACQUIRE_ORPHAN_ONLY alone: line 1777 tests bit 0 of the flags, which is
   SANLK_ACQUIRE_LVB *)
Theorem C30_refuted : ~ C30_statement.
Proof. intros H. apply (H [] 7 false 4); reflexivity. Qed.

Lemma has_bit0 flags : has flags 1 = N.odd flags.
Proof.
  unfold has. destruct flags as [|[p|p|]]; reflexivity.
Qed.

(* What is true: together with the LVB flag it works. *)
Theorem C30_with_lvb_partial rs k sh flags :
  has flags ACQUIRE_ORPHAN_ONLY = true -> has flags ACQUIRE_LVB = true ->
  ~ goes_to_disk rs k sh flags /\
  (forall r, decide rs k sh flags = DAdopt r -> In r rs /\ r_key r = k /\ r_list r = LOrphan /\ r_sh r = sh) /\
  ((forall r, In r rs -> r_key r <> k) -> decide rs k sh flags = DFail ENOENT).
Proof.
  unfold ACQUIRE_LVB. intros O L. split; [|split].
  - unfold goes_to_disk, decide. rewrite O. rewrite L.
    repeat match goal with |- context [match find_resource ?a ?b ?c with _ => _ end] =>
      destruct (find_resource a b c) end;
    repeat match goal with |- context [if ?b then _ else _] => destruct b end; discriminate.
  - intros r. apply decide_adopt.
  - intros N.
    assert (F : forall l, find_resource k l rs = None).
    { intros l. destruct (find_resource k l rs) as [r|] eqn:E; [|auto].
      apply find_resource_In in E as (A & B & _). destruct (N r A B). }
    unfold decide. rewrite !F, O, L. reflexivity.
Qed.

(* Without the LVB flag it is the same as SANLK_ACQUIRE_ORPHAN. *)
Theorem C30_same_as_orphan_partial rs k sh flags :
  has flags ACQUIRE_ORPHAN_ONLY = true -> has flags ACQUIRE_LVB = false ->
  decide rs k sh flags = decide rs k sh ACQUIRE_ORPHAN.
Proof.
  unfold ACQUIRE_LVB. intros O L. unfold decide. rewrite O, L.
  assert (A : has flags (N.lor ACQUIRE_ORPHAN ACQUIRE_ORPHAN_ONLY) = true).
  { unfold has in *. rewrite negb_true_iff, N.eqb_neq in *. intros E. apply O.
    rewrite N.land_lor_distr_r in E. apply N.lor_eq_0_iff in E. tauto. }
  rewrite A. reflexivity.
Qed.

(* a mode that does not fit the orphan is refused, and so is an acquire that did not ask
   for orphans *)
Theorem C30_orphan_protected rs k sh flags r :
  find_resource k LOrphan rs = Some r ->
  (has flags (N.lor ACQUIRE_ORPHAN ACQUIRE_ORPHAN_ONLY) = false \/ r_sh r <> sh) ->
  exists e, decide rs k sh flags = DFail e \/ exists r', decide rs k sh flags = DJoin r'.
Proof.
  intros F H. unfold decide. rewrite F.
  destruct (find_resource k LRem rs); [eauto|].
  destruct (find_resource k LAdd rs); [eauto|].
  destruct (find_resource k LHeld rs) as [r1|]; [destruct (sh && r_sh r1); [exists 0; right|]; eauto|].
  destruct H as [-> |H]; [cbn; eauto|].
  destruct (has flags _); cbn; [|eauto].
  destruct (r_sh r), sh; cbn; eauto; congruence.
Qed.

(* The lease of a dead process that held it persistently becomes an orphan, in the same mode, and stays
   protected; other leases are released. *)
Theorem C30_dead_holder i s s' t r :
  rreach alone s -> rstep s (OAsync i) = Some s' -> s_tok s i = Some t -> t_dead t = false ->
  In r (s_res s) -> r_id r = t_rid t -> r_toks r = [i] -> r_lver r = true ->
  exists r', In r' (s_res s') /\ r_id r' = r_id r /\ r_key r' = r_key r /\ r_sh r' = r_sh r /\
    r_list r' = (if t_per t then LOrphan else LRem) /\
    (t_per t = true -> forall sh flags, has flags (N.lor ACQUIRE_ORPHAN ACQUIRE_ORPHAN_ONLY) = false ->
       exists e, decide (s_res s') (r_key r) sh flags = DFail e).
Proof.
  intros R ST T D I ID TK LV.
  assert (IV := rreach_inv s R).
  assert (IV' : rinv s') by (apply (rinv_step s (OAsync i)); [exact IV|exact Logic.I|exact ST]).
  assert (G : get_res (t_rid t) (s_res s) = Some r).
  { destruct (get_res (t_rid t) (s_res s)) as [x|] eqn:G.
    - destruct (get_res_In _ _ _ G) as [Ix Ex]. f_equal. apply (NoDup_map_inj r_id (s_res s)); [apply (RI_ids s IV)|exact Ix|exact I|congruence].
    - exfalso. unfold get_res in G. assert (F := find_none _ _ G r I). cbn in F. rewrite ID, N.eqb_refl in F. discriminate. }
  cbn [rstep] in ST. rewrite T in ST. destruct (t_ok t); [|discriminate]. destruct (t_conv t); [discriminate|].
  rewrite G, TK in ST. unfold rem_tok in ST. cbn [filter] in ST. rewrite N.eqb_refl in ST. cbn [negb] in ST.
  rewrite D, LV in ST. cbn [orb negb] in ST.
  destruct (t_per t) eqn:PE; inversion ST as [ES]; clear ST.
  - set (f := fun r0 => set_list LOrphan (set_toks [] r0)) in *.
    assert (IN : In (f r) (s_res s')) by (rewrite <- ES; cbn [s_res]; apply In_upd_res; assumption).
    exists (f r). split; [rewrite ES; exact IN|]. repeat split.
    intros _ sh flags NO. rewrite ES.
    assert (ONE : forall x, In x (s_res s') -> r_key x = r_key r -> x = f r).
    { intros x Ix Ex. apply (NoDup_map_inj r_key (s_res s')); [apply (RI_keys s' IV')|exact Ix|exact IN|rewrite Ex; reflexivity]. }
    assert (NF : forall l, l <> LOrphan -> find_resource (r_key r) l (s_res s') = None).
    { intros l NL. destruct (find_resource (r_key r) l (s_res s')) as [x|] eqn:E; [exfalso|reflexivity].
      destruct (find_resource_In _ _ _ _ E) as (Ix & Ex & Lx). rewrite (ONE x Ix Ex) in Lx. cbn in Lx. congruence. }
    unfold decide. rewrite (NF LRem), (NF LAdd), (NF LHeld) by discriminate.
    destruct (find_resource (r_key r) LOrphan (s_res s')) as [x|] eqn:E.
    + rewrite NO. eexists. reflexivity.
    + exfalso. exact (find_resource_None _ _ _ (f r) E IN eq_refl eq_refl).
  - exists (set_thread (set_list LRem (set_toks [] r))). split; [|repeat split; discriminate].
    cbn [s_res]. apply (In_upd_res (t_rid t) (fun r0 => set_thread (set_list LRem (set_toks [] r0)))); assumption.
Qed.

(* concrete cases: an orphan is adopted; none exists, with and without the LVB flag *)
Definition orphan7 : res := mkRes 0 7 LOrphan false true false [].
Example C30_nonvacuous :
  decide [orphan7] 7 false 5 = DAdopt orphan7 /\
  decide [orphan7] 7 true 5 = DFail EUCLEAN /\
  decide [orphan7] 8 false 5 = DFail ENOENT /\
  decide [orphan7] 8 false 4 = DCreate.
Proof. repeat split; reflexivity. Qed.

Print Assumptions C30_refuted.
Print Assumptions C30_with_lvb_partial.
Print Assumptions C30_same_as_orphan_partial.
Print Assumptions C30_orphan_protected.
Print Assumptions C30_dead_holder.
