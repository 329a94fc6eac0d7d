(* C39: when a process dies its leases are released and its slot is freed once. *)
From Coq Require Import List Arith Lia Bool Permutation.
From Verif Require Import ClientSlot.
Import ListNotations.

(* ---------------- specification ---------------- *)
(* no command is running for the slot, and no thread has anything left to do for it *)
Definition no_command (s : cst) : Prop :=
  th s = None /\ pend s = [] /\ clean s = false /\ pres s = false /\ unreg s = false /\ mpend s = false.
(* every lease the process ever got was released once; the slot was freed once *)
Definition cleaned (s : cst) : Prop :=
  Permutation (released s) (born s) /\ NoDup (released s) /\ used s = false /\ freed s = 1.
Definition C39_statement : Prop := forall es s,
  csteps cinit es = Some s -> died s = true -> no_command s -> cleaned s.
(* the events that break it *)
Definition good_ev (e : cev) : bool := match e with EShort | EKillDead | EReReg => false | _ => true end.

(* ---------------- invariant of the control part ---------------- *)
Definition is_some {A} (o : option A) : bool := match o with Some _ => true | None => false end.
Definition self_th (s : cst) : bool := match th s with Some (_, b) => b | None => false end.
Definition b2n (b : bool) : nat := if b then 1 else 0.
Definition cinv (s : cst) : bool :=
  if used s
  then
    Nat.eqb (freed s) 0 &&
    eqb (died s) (pdead s) && eqb (pdead s) (negb (reg s)) &&
    eqb (active s) (is_some (th s)) &&
    Nat.eqb (b2n (susp s)) (b2n (self_th s) + b2n (pres s) + b2n (unreg s)) &&
    (* while the process is dead somebody has the duty to clean up *)
    Nat.eqb (b2n (pdead s)) (b2n (pdead s && active s) + b2n (mpend s) + b2n (clean s) + b2n (nfree s)) &&
    implb (nfree s) (susp s)
  else
    Nat.eqb (freed s) 1 && died s && negb (is_some (th s)) && negb (clean s) && negb (pres s) && negb (unreg s) && negb (mpend s).
Definition tinv (s : cst) : Prop :=
  Permutation (born s) (heldt s ++ ttoks s ++ pend s ++ released s) /\ NoDup (born s) /\
  (used s = false -> heldt s = []) /\ (nfree s = true -> heldt s = []) /\ (th s = None -> ttoks s = []).

Lemma cinv_step : forall s e s', cinv s = true -> good_ev e = true -> cstep s e = Some s' -> cinv s' = true.
Proof.
  intros [u rg pd ac su nf hl th0 tk pn cl pr un mp bo re fr di] e s' I G S.
  destruct u.
  - unfold cinv, self_th in I. cbn [used freed died pdead reg active th susp pres unreg mpend clean nfree] in I.
    destruct fr as [|fr]; [|discriminate I].
    destruct rg, pd; try (destruct di; discriminate I);
    destruct di; try discriminate I;
    (destruct th0 as [[c sf]|]; destruct ac; try discriminate I;
     try (destruct sf); destruct su, pr, un; try discriminate I;
     destruct mp, cl, nf; try discriminate I;
     destruct e as [c0 sf0| | |t|f|ok| | | | | | | |]; try discriminate G;
     unfold cstep, client_free, client_resume in S;
     cbn [used freed died pdead reg active th susp pres unreg mpend clean nfree heldt ttoks pend born released
          is_some negb andb orb implb eqb] in S;
     try discriminate S;
     repeat match type of S with
       | context [if is_acq ?c && negb ?b then _ else _] => destruct (is_acq c && negb b)
       | context [if is_rel ?c then _ else _] => destruct (is_rel c)
       | context [if (is_kill ?c && ?x && ?y) then _ else _] => destruct (is_kill c && x && y)
       | context [if is_kill ?c && ?x then _ else _] => destruct (is_kill c && x)
       | context [if (if ?b then _ else _) then _ else _] => destruct b; cbn [negb andb] in S
       | context [match ?l with [] => None | _ :: _ => _ end] => destruct l
       end; try discriminate S;
     try (injection S as <-; reflexivity)).
  - unfold cinv in I. cbn [used freed died pdead reg active th susp pres unreg mpend clean nfree] in I.
    destruct fr as [|[|fr]]; try discriminate I. destruct di; try discriminate I.
    destruct th0; [discriminate I|]. destruct cl, pr, un, mp; try discriminate I.
    destruct e; try discriminate G; cbn in S; try discriminate S.
    destruct pn; [discriminate S|]. injection S as <-. reflexivity.
Qed.

(* ---------------- the tokens ---------------- *)
Lemma filter_split : forall (f : tok -> bool) l, Permutation l (filter (fun t => negb (f t)) l ++ filter f l).
Proof.
  induction l as [|x l IH]; cbn [filter]; [constructor|]. destruct (f x); cbn [negb app].
  - rewrite <- Permutation_middle. apply perm_skip. exact IH.
  - apply perm_skip. exact IH.
Qed.
Lemma existsb_not_in : forall t l, existsb (Nat.eqb t) l = false -> ~ In t l.
Proof. intros t l E H. assert (existsb (Nat.eqb t) l = true). { apply existsb_exists. exists t. split; [exact H|apply Nat.eqb_refl]. } congruence. Qed.

(* client_free and client_resume move no token that is still held *)
Lemma free_tinv : forall s, tinv s -> heldt s = [] -> tinv (client_free s).
Proof.
  intros [u rg pd ac su nf hl th0 tk pn cl pr un mp bo re fr di] (P & N & U & F & T) E. unfold client_free.
  cbn [used reg susp heldt] in *. destruct u; cbn [negb]; [|unfold tinv; auto]. destruct rg; [unfold tinv; auto|].
  subst hl. destruct su; unfold tinv; cbn in *; auto.
Qed.
Lemma resume_tinv : forall s, tinv s -> tinv (client_resume s).
Proof.
  intros [u rg pd ac su nf hl th0 tk pn cl pr un mp bo re fr di] (P & N & U & F & T). unfold client_resume.
  cbn [used susp nfree] in *. destruct u; cbn [negb]; [|unfold tinv; auto]. destruct su; cbn [negb]; [|unfold tinv; auto].
  destruct nf; [apply free_tinv; [|cbn in *; auto]|]; unfold tinv; cbn in *; auto.
Qed.

Lemma used_th : forall s, cinv s = true -> used s = false -> th s = None /\ nfree s = nfree s.
Proof.
  intros s I U. unfold cinv in I. rewrite U in I. destruct (th s); [|auto].
  cbn [is_some negb] in I. rewrite !andb_false_r in I. discriminate I.
Qed.
Lemma nfree_th : forall s, cinv s = true -> used s = true -> nfree s = true -> th s = None.
Proof.
  intros s I U F. unfold cinv in I. rewrite U in I. destruct (th s) eqn:T; [|reflexivity].
  apply andb_true_iff in I. destruct I as (I & _). apply andb_true_iff in I. destruct I as (I & B).
  repeat (apply andb_true_iff in I; destruct I as (I & ?)).
  cbn [is_some] in *. destruct (active s); [|discriminate]. rewrite F in B. rewrite andb_true_r in B.
  apply Nat.eqb_eq in B. destruct (pdead s), (mpend s), (clean s); cbn in B; discriminate B.
Qed.

Lemma tinv_step : forall s e s', cinv s = true -> tinv s -> good_ev e = true -> cstep s e = Some s' -> tinv s'.
Proof.
  intros s e s' I (P & N & U & F & T) G S.
  assert (Hth : th s <> None -> used s = true).
  { intros H. destruct (used s) eqn:E; [reflexivity|]. destruct (used_th s I E) as (X & _). congruence. }
  assert (Hnf : th s <> None -> nfree s = false).
  { intros H. destruct (nfree s) eqn:E; [|reflexivity]. exfalso. apply H. apply nfree_th; auto. }
  destruct e as [c0 sf0| | |t|f|ok| | | | | | | |]; try discriminate G; cbn [cstep] in S.
  - destruct (_ && _) eqn:E in S; [|discriminate S]. injection S as <-. unfold tinv. cbn.
    assert (th s = None) as Et.
    { destruct (used s) eqn:EU; [|cbn in E; discriminate E]. unfold cinv in I. rewrite EU in I.
      repeat (apply andb_true_iff in I; destruct I as (I & ?)). repeat (apply andb_true_iff in E; destruct E as (E & ?)).
      destruct (active s); [discriminate|]. destruct (th s); [discriminate|reflexivity]. }
    rewrite (T Et) in P. cbn [app] in P. auto.
  - destruct (_ && _) in S; [|discriminate S]. injection S as <-. unfold tinv. cbn. auto.
  - destruct (unreg s); [|discriminate S]. injection S as <-. apply resume_tinv. unfold tinv. cbn. auto.
  - destruct (th s) as [[c sf]|] eqn:Et; [|discriminate S]. destruct (is_acq c && _) eqn:E; [|discriminate S]. injection S as <-.
    apply andb_true_iff in E. destruct E as (_ & E). apply negb_true_iff in E. apply existsb_not_in in E.
    unfold tinv. cbn. split; [|split; [constructor; assumption|]]. 
    + rewrite <- Permutation_middle. apply perm_skip. exact P.
    + do 2 (split; [auto|]). discriminate.
  - destruct (th s) as [[c sf]|] eqn:Et; [|discriminate S]. destruct (is_rel c); [|discriminate S]. injection S as <-.
    unfold tinv. cbn. split; [|split; [exact N|]].
    + rewrite P. rewrite (filter_split f (heldt s)) at 1. rewrite <- !app_assoc. reflexivity.
    + split; [intros X; rewrite Hth in X; discriminate|]. split; [|discriminate].
      intros X. rewrite Hnf in X; discriminate.
  - destruct (th s) as [[c sf]|] eqn:Et; [|discriminate S]. destruct (is_kill c && sf && pdead s); [discriminate S|]. injection S as <-.
    unfold tinv. cbn. destruct (is_acq c && ok && negb (pdead s)).
    + split; [rewrite P, <- app_assoc; reflexivity|]. split; [exact N|].
      split; [intros X; rewrite Hth in X; discriminate|]. split; [|reflexivity]. intros X. rewrite Hnf in X; discriminate.
    + split; [rewrite P, <- !app_assoc; reflexivity|]. auto.
  - destruct (pend s) as [|t r]; [discriminate S|]. injection S as <-. unfold tinv. cbn. split; [|auto].
    rewrite P. apply Permutation_app_head. apply Permutation_app_head. cbn. apply Permutation_middle.
  - destruct (clean s); [|discriminate S]. injection S as <-. apply free_tinv; [|reflexivity]. unfold tinv. cbn.
    split; [|auto]. rewrite P.
    rewrite (Permutation_app_comm (heldt s)). rewrite <- !app_assoc. apply Permutation_app_head. apply Permutation_app_head. apply Permutation_app_comm.
  - destruct (pres s && negb (clean s)); [|discriminate S]. injection S as <-. apply resume_tinv. unfold tinv. cbn. auto.
  - destruct (_ && _) in S; [|discriminate S]. injection S as <-. unfold tinv. cbn. auto.
  - destruct (mpend s); [|discriminate S]. injection S as <-. apply free_tinv; [|reflexivity]. unfold tinv. cbn.
    split; [|auto]. rewrite P.
    rewrite (Permutation_app_comm (heldt s)). rewrite <- !app_assoc. apply Permutation_app_head. apply Permutation_app_head. apply Permutation_app_comm.
Qed.

Lemma run_inv : forall es s s', cinv s = true -> tinv s -> forallb good_ev es = true -> csteps s es = Some s' -> cinv s' = true /\ tinv s'.
Proof.
  induction es as [|e r IH]; intros s s' I T G S; cbn [csteps forallb] in *. { injection S as <-. auto. }
  apply andb_true_iff in G. destruct G as (G1 & G2). destruct (cstep s e) as [s1|] eqn:E; [|discriminate S].
  apply (IH s1 s'); auto. { eapply cinv_step; eauto. } eapply tinv_step; eauto.
Qed.
Lemma init_inv : cinv cinit = true /\ tinv cinit.
Proof. split; [reflexivity|]. unfold tinv, cinit; cbn. repeat split; auto; constructor. Qed.

(* ---------------- theorems ---------------- *)
(* In every interleaving without the three events above, a dead process leaves
   nothing behind once no command is running for it. *)
Theorem C39_cleanup_partial : forall es s,
  forallb good_ev es = true -> csteps cinit es = Some s -> died s = true -> no_command s -> cleaned s.
Proof.
  intros es s G S D (Q1 & Q2 & Q3 & Q4 & Q5 & Q6). destruct init_inv as (I0 & T0).
  destruct (run_inv es _ _ I0 T0 G S) as (I & P & N & U & F & T).
  assert (Hu : used s = false).
  { destruct (used s) eqn:Eu; [|reflexivity]. exfalso. unfold cinv, self_th in I. rewrite Eu, Q1, Q3, Q4, Q5, Q6, D in I.
    destruct (pdead s), (active s), (nfree s), (susp s), (reg s), (freed s); discriminate I. }
  unfold cleaned. rewrite (U Hu), (T Q1), Q2 in P. cbn [app] in P. split; [symmetry; exact P|].
  split; [eapply Permutation_NoDup; eauto|]. split; [exact Hu|].
  unfold cinv in I. rewrite Hu in I. repeat (apply andb_true_iff in I; destruct I as (I & ?)). apply Nat.eqb_eq in I. exact I.
Qed.
(* Once the slot is free no thread has anything left to do with it, so a new
   connection can have it. *)
Theorem C39_free_slot_untouched : forall es s,
  forallb good_ev es = true -> csteps cinit es = Some s -> used s = false ->
  th s = None /\ clean s = false /\ pres s = false /\ unreg s = false /\ mpend s = false /\ heldt s = [].
Proof.
  intros es s G S Hu. destruct init_inv as (I0 & T0).
  destruct (run_inv es _ _ I0 T0 G S) as (I & P & N & U & F & T). unfold cinv in I. rewrite Hu in I.
  destruct (th s), (clean s), (pres s), (unreg s), (mpend s); cbn in I; rewrite ?andb_false_r in I; try discriminate I. auto 7.
Qed.
(* As long as the process lives, its slot is not freed and nothing it holds is
   released unless its own release command took it. *)
Theorem C39_live_kept : forall es s,
  forallb good_ev es = true -> csteps cinit es = Some s -> died s = false -> used s = true /\ freed s = 0.
Proof.
  intros es s G S D. destruct init_inv as (I0 & T0).
  destruct (run_inv es _ _ I0 T0 G S) as (I & _). unfold cinv in I. rewrite D in I.
  destruct (used s); [|rewrite andb_false_r in I; discriminate I].
  repeat (apply andb_true_iff in I; destruct I as (I & ?)). apply Nat.eqb_eq in I. auto.
Qed.
(* In every interleaving, also those with the three events: nothing is released twice
   and the slot is freed at most once. *)
Definition cnt (t : tok) (l : list tok) : nat := count_occ Nat.eq_dec l t.
Definition once (s : cst) : Prop :=
  (forall t, cnt t (heldt s) + cnt t (ttoks s) + cnt t (pend s) + cnt t (released s) <= cnt t (born s)) /\
  (forall t, cnt t (born s) <= 1) /\ freed s = (if used s then 0 else 1).
Lemma free_once : forall s, once s -> once (client_free s).
Proof.
  intros [u rg pd ac su nf hl th0 tk pn cl pr un mp bo re fr di] (A & B & C). unfold client_free.
  cbn [used reg susp heldt freed] in *. destruct u; cbn [negb]; [|split; auto]. destruct rg; [split; auto|].
  destruct su; unfold once; cbn in *; auto. split; [|split; [exact B|lia]]. intros t. specialize (A t). lia.
Qed.
Lemma resume_once : forall s, once s -> once (client_resume s).
Proof.
  intros [u rg pd ac su nf hl th0 tk pn cl pr un mp bo re fr di] (A & B & C). unfold client_resume.
  cbn [used susp nfree] in *. destruct u; cbn [negb]; [|split; auto]. destruct su; cbn [negb]; [|split; auto].
  destruct nf; [apply free_once|]; split; auto.
Qed.
Lemma cnt_app : forall t a b, cnt t (a ++ b) = cnt t a + cnt t b.
Proof. intros t a b. apply count_occ_app. Qed.
Lemma cnt_filter : forall f t l, cnt t (filter (fun x => negb (f x)) l) + cnt t (filter f l) = cnt t l.
Proof.
  induction l as [|x l IH]; [reflexivity|]. cbn [filter]. destruct (f x); cbn [negb]; unfold cnt in *; cbn [count_occ]; destruct (Nat.eq_dec x t); lia.
Qed.
Lemma once_step : forall s e s', once s -> cstep s e = Some s' -> once s'.
Proof.
  intros s e s' (A & B & C) S.
  destruct e as [c0 sf0| | |t|f|ok| | | | | | | |]; cbn [cstep] in S;
    repeat match type of S with
      | (if ?b then _ else _) = _ => destruct b eqn:?; try discriminate S
      | match ?x with Some _ => _ | None => _ end = _ => destruct x as [[c sf]|] eqn:?; try discriminate S
      | match ?x with [] => _ | _ :: _ => _ end = _ => destruct x as [|t0 r] eqn:?; try discriminate S
      end; injection S as <-; try apply resume_once; try apply free_once; unfold once;
    cbn [heldt ttoks pend released born freed used]; (split; [intros u; specialize (A u)|split; [|exact C]]); try exact B;
    rewrite ?cnt_app; try (cbn [cnt count_occ] in *; lia).
  - change (cnt u (t :: ttoks s)) with (count_occ Nat.eq_dec (t :: ttoks s) u).
    change (cnt u (t :: born s)) with (count_occ Nat.eq_dec (t :: born s) u).
    unfold cnt in *. cbn [count_occ]. destruct (Nat.eq_dec t u); lia.
  - intros u. apply andb_true_iff in Heqb. destruct Heqb as (_ & E). apply negb_true_iff in E. apply existsb_not_in in E.
    apply (count_occ_not_In Nat.eq_dec) in E. specialize (B u). unfold cnt in *. cbn [count_occ]. destruct (Nat.eq_dec t u); [subst; lia|exact B].
  - pose proof (cnt_filter f u (heldt s)). lia.
  - destruct (is_acq c && ok && negb (pdead s)); rewrite ?cnt_app; cbn [cnt count_occ]; lia.
  - unfold cnt in *. cbn [count_occ] in *. destruct (Nat.eq_dec t0 u); lia.
Qed.
Theorem C39_never_twice : forall es s, csteps cinit es = Some s -> NoDup (released s) /\ freed s <= 1.
Proof.
  intros es s S.
  assert (G : forall es s0, once s0 -> csteps s0 es = Some s -> once s).
  { clear. induction es as [|e r IH]; intros s0 O S; cbn [csteps] in S. { congruence. }
    destruct (cstep s0 e) as [s1|] eqn:E; [|discriminate S]. apply (IH s1); [eapply once_step; eauto|exact S]. }
  assert (O0 : once cinit). { unfold once, cinit; cbn. auto. }
  destruct (G es cinit O0 S) as (A & B & C). split; [|destruct (used s); lia].
  apply (NoDup_count_occ Nat.eq_dec). intros t. specialize (A t). specialize (B t). unfold cnt in *. lia.
Qed.

(* ---------------- the full statement fails ---------------- *)
(* A process holding a lease dies while it sends a convert request: cmd_convert
   leaves cmd_active set, so client_pid_dead leaves everything to a thread that has
   already gone.  The lease is held, and the slot used, for ever. *)
Definition w_short : list cev :=
  [EStart Acquire true; EAcq 1; EDone true; EResume; EStart Convert true; EShort; EResume; EDead1].
Definition s_short : cst := Eval vm_compute in match csteps cinit w_short with Some s => s | None => cinit end.
Lemma run_short : csteps cinit w_short = Some s_short.
Proof. vm_compute. reflexivity. Qed.
Theorem C39_refuted : ~ C39_statement.
Proof.
  intros H. destruct (H _ _ run_short eq_refl) as (_ & _ & U & _); [unfold no_command; cbn; auto 7|]. discriminate U.
Qed.
(* and no event can ever change that *)
Theorem C39_stuck_forever : forall es s', csteps s_short es = Some s' ->
  heldt s' = [1] /\ used s' = true /\ released s' = [].
Proof.
  intros es. destruct es as [|e r]; intros s' S; cbn [csteps] in S. { injection S as <-. auto. }
  destruct e; cbn in S; discriminate S.
Qed.
(* A process dies just after it sent a killpath request: cmd_killpath cleans up but
   does not resume the connection, so the slot stays used for ever. *)
Definition w_kill : list cev := [EStart Killpath true; EDead1; EKillDead].
Definition s_kill : cst := Eval vm_compute in match csteps cinit w_kill with Some s => s | None => cinit end.
Theorem C39_refuted_killpath : csteps cinit w_kill = Some s_kill /\ died s_kill = true /\ no_command s_kill /\
  used s_kill = true /\ freed s_kill = 0 /\ forall es s', csteps s_kill es = Some s' -> used s' = true.
Proof.
  split; [vm_compute; reflexivity|]. split; [reflexivity|]. split; [unfold no_command; cbn; auto 7|]. do 2 (split; [reflexivity|]).
  intros es. destruct es as [|e r]; intros s' S; cbn [csteps] in S. { injection S as <-. auto. }
  destruct e; cbn in S; discriminate S.
Qed.
(* A second REGISTER on the connection drops the list of its leases. *)
Definition w_rereg : list cev := [EStart Acquire true; EAcq 1; EDone true; EResume; EReReg; EDead1; EDead2].
Theorem C39_refuted_reregister : exists s, csteps cinit w_rereg = Some s /\ died s = true /\ no_command s /\
  born s = [1] /\ released s = [].
Proof. eexists. split; [vm_compute; reflexivity|]. unfold no_command. cbn. auto 9. Qed.

(* ---------------- hypotheses can be met ---------------- *)
(* a process with two leases dies while another connection releases one of them and
   while its own acquire is being undone *)
Definition w_good : list cev :=
  [EStart Acquire true; EAcq 1; EAcq 2; EDone true; EResume; EStart Release false; ETake (Nat.eqb 2);
   EUnregStart; EDead1; EDone true; EPend; EClean; EUnregDone].
Example C39_nonvacuous : exists s, csteps cinit w_good = Some s /\ forallb good_ev w_good = true /\
  died s = true /\ no_command s /\ born s = [2; 1] /\ released s = [1; 2].
Proof. eexists. split; [vm_compute; reflexivity|]. unfold no_command. cbn. auto 9. Qed.

Print Assumptions C39_cleanup_partial.
Print Assumptions C39_free_slot_untouched.
Print Assumptions C39_live_kept.
Print Assumptions C39_never_twice.
Print Assumptions C39_refuted.
Print Assumptions C39_stuck_forever.
Print Assumptions C39_refuted_killpath.
Print Assumptions C39_refuted_reregister.
