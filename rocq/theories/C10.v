(* C10: the owner recorded for a lease version is a host and generation that
   itself started an acquire for that version.  No discipline is needed. *)
From Coq Require Import List NArith ZArith Lia Bool Arith.
From Verif Require Import Majority Mbal Ballot BallotProof LeaseSys LeaseProof LeaseRuns C09.
Import ListNotations.
Open Scope N_scope.

(* ---- specification: an execution is a list of actions; what was started and
   what was recorded is read off the actions ---- *)
Inductive exec (c : cfg) : list act -> st -> Prop :=
| exec_nil : exec c [] init
| exec_cons l s a s' : exec c l s -> step c s a = Some s' -> exec c (a :: l) s'.

(* host h entered run_ballot for version V with generation g *)
Definition started (l : list act) (h V g : N) : Prop := exists mbal, In (AStart h V mbal g) l.

(* in state s host h is about to record x: it writes x's owner and version into
   the leader record *)
Theorem C10_owner_started : forall c l s h x w,
  exec c l s -> s_loc s h = Dec x w -> started l (d_inp x) (d_lver x) (d_inp2 x).
Proof.
  intros c l s h x w E H.
  assert (ST : forall l s, exec c l s -> forall a b g, In (a, b, g) (s_starts s) -> started l a b g).
  { clear. intros l s E. induction E as [|l s a s' E IH H]; intros x b g HIN.
    - destruct HIN.
    - assert (K : s_starts s' = s_starts s -> started (a :: l) x b g).
      { intros EQ. rewrite EQ in HIN. destruct (IH _ _ _ HIN) as (m & M). exists m. right; auto. }
      destruct a; cbn [step] in H; repeat match type of H with
        | (if ?b then _ else _) = _ => destruct b
        | (match ?b with _ => _ end) = _ => destruct b
        end; try discriminate; injection H as <-; try (apply K; reflexivity);
        try (apply K; cbn; destruct ok; reflexivity);
        try (apply K; cbn; destruct (same_blk _ _); reflexivity).
      destruct HIN as [HIN|HIN].
      + injection HIN as <- <- <-. exists mbal. left. reflexivity.
      + destruct (IH _ _ _ HIN) as (m & M). exists m. right; auto. }
  assert (V : VInv s).
  { clear H. induction E; [apply vinv_init|eapply vinv_step; eauto]. }
  apply (ST l s E).
  assert (X : exists s', step c s (ARec h) = Some s') by (cbn; rewrite H; eauto).
  destruct X as (s' & X). pose proof (vinv_step _ _ _ _ V X) as V'.
  cbn [step] in X. rewrite H in X. injection X as <-.
  destruct (v_recs _ V' (mkR h (d_lver x) (d_mbal x) (blk_val x) w)) as (A & _); [left; reflexivity|].
  exact A.
Qed.

(* and what is recorded is exactly that *)
Theorem C10_recorded_is_decided : forall c s h s',
  step c s (ARec h) = Some s' ->
  exists x w, s_loc s h = Dec x w /\
    s_recs s' = mkR h (d_lver x) (d_mbal x) (d_inp x, d_inp2 x, d_inp3 x) w :: s_recs s.
Proof.
  intros c s h s' H. cbn [step] in H. destruct (s_loc s h); try discriminate. injection H as <-.
  exists x, w. auto.
Qed.

(* the leader record of the lease system (one disk) names a host that started a
   ballot for its version with the generation in the record *)
Ltac splitH H := repeat match type of H with
  | (if ?b then _ else _) = _ => destruct b
  | (match ?b with _ => _ end) = _ => let E := fresh "E" in destruct b eqn:E
  | with_a ?o _ = _ => let E := fresh "E" in destruct o eqn:E; cbn [with_a] in H
  end; try discriminate.

Lemma vinv_ostep c o a s : (forall s, o = Some s -> VInv s) -> ostep c o a = Some s -> VInv s.
Proof. intros V H. destruct o; cbn in H; [|discriminate]. eapply vinv_step; eauto. Qed.

Lemma vinv_bstep c s a s' : VInv (b_a s) -> bstep c s a = Some s' -> VInv (b_a s').
Proof.
  intros V H.
  assert (W : forall a a', step c (b_a s) a = Some a' -> VInv a') by (intros; eapply vinv_step; eauto).
  assert (W2 : forall a1 a2 a', ostep c (step c (b_a s) a1) a2 = Some a' -> VInv a')
    by (intros; eapply vinv_ostep; eauto).
  assert (W3 : forall a1 a2 a3 a', ostep c (ostep c (step c (b_a s) a1) a2) a3 = Some a' -> VInv a')
    by (intros; eapply vinv_ostep; [|eauto]; eauto).
  destruct a; cbn [bstep] in H; splitH H; try (injection H as <-); cbn [b_a set_a_pc set_pc set_shb]; eauto;
    try (eapply vinv_step; [|eauto]; eauto; fail).
  all: eapply vinv_ostep; [|eauto]; intros; eapply vinv_step; [|eauto]; eauto.
Qed.

Theorem C10_leader_owner_started : forall c s m cur h x w wts,
  breach c any s -> b_pc s h = Com m cur -> s_loc (b_a s) h = Dec x w ->
  let l := new_ldr s h wts m cur x in
  In (l_owner l, l_lver l, l_gen l) (s_starts (b_a s)).
Proof.
  intros c s m cur h x w wts R EP EL. cbn.
  assert (V : VInv (b_a s)) by (clear EP EL; induction R; [apply vinv_init|eapply vinv_bstep; eauto]).
  assert (X : exists s', step c (b_a s) (ARec h) = Some s') by (cbn; rewrite EL; eauto).
  destruct X as (s' & X). pose proof (vinv_step _ _ _ _ V X) as V'.
  cbn [step] in X. rewrite EL in X. injection X as <-.
  destruct (v_recs _ V' (mkR h (d_lver x) (d_mbal x) (blk_val x) w)) as (A & _); [left; reflexivity|].
  exact A.
Qed.

(* ---- the hypotheses can be met: host 2 is about to record host 1 ---- *)
Fixpoint runl (c : cfg) (s : st) (l : list act) : option st :=
  match l with [] => Some s | a :: r => match step c s a with Some s' => runl c s' r | None => None end end.

Lemma runl_exec c l : forall pre s s', exec c pre s -> runl c s l = Some s' -> exec c (rev l ++ pre) s'.
Proof.
  induction l as [|a r IH]; cbn [runl rev app]; intros pre s s' E H.
  - injection H as <-. exact E.
  - destruct (step c s a) as [s1|] eqn:E1; [|discriminate]. rewrite <- app_assoc. cbn [app].
    apply (IH (a :: pre) s1 s'); auto. eapply exec_cons; eauto.
Qed.

Example C10_nonvacuous : exists l s x w,
  exec (mkC 3 2 2) l s /\ s_loc s 2 = Dec x w /\ (d_inp x, d_lver x, d_inp2 x) = (1, 1, 7) /\
  In (AStart 2 1 4 9) l.
Proof.
  destruct (runl (mkC 3 2 2) init (removelast run3)) as [s|] eqn:E; [|vm_compute in E; discriminate].
  pose proof (runl_exec _ _ _ _ _ (exec_nil _) E) as X.
  exists (rev (removelast run3) ++ []), s. vm_compute in E. injection E as <-.
  eexists. eexists. split; [exact X|]. split; [vm_compute; reflexivity|]. split; [reflexivity|].
  vm_compute. intuition.
Qed.

Print Assumptions C10_owner_started.
Print Assumptions C10_leader_owner_started.
