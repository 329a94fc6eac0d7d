(* C28: within one daemon a resource is held by one exclusive holder or by any number
   of shared holders, never both, for every sequence of acquires, releases,
   conversions and process deaths, although the disk protocol cannot tell two
   processes of one host apart. *)
From Coq Require Import List NArith Lia Bool Arith.
From Verif Require Import Resources.
Import ListNotations.
Open Scope N_scope.

(* token i stands for a lease on resource k that acquire_token has granted *)
Definition holds (s : rst) (i k : N) (shared : bool) : Prop :=
  exists t, s_tok s i = Some t /\ t_ok t = true /\ t_key t = k /\ t_sh t = shared.

Definition compatible (s : rst) : Prop :=
  forall i j k a b, i <> j -> holds s i k a -> holds s j k b -> a = true /\ b = true.

Definition C28_statement : Prop := forall s, rreach (fun _ _ => True) s -> compatible s.

(* True as long as a conversion to exclusive only succeeds for a token that is the only
   one of the resource when the conversion ends. *)
Theorem C28_local_exclusion_partial s : rreach alone s -> compatible s.
Proof.
  intros R. pose proof (rreach_inv _ R) as I.
  intros i j k a b Nij (t1 & A1 & A2 & A3 & A4) (t2 & B1 & B2 & B3 & B4).
  destruct (RI_tok _ I i t1 A1) as (r1 & C1 & C2 & C3 & C4 & C5 & C6 & _).
  destruct (RI_tok _ I j t2 B1) as (r2 & D1 & D2 & D3 & D4 & D5 & D6 & _).
  assert (r1 = r2) by (apply (NoDup_map_inj _ _ _ _ (RI_keys _ I) C1 D1); congruence). subst r2.
  destruct (RI_res _ I r1 C1) as (_ & _ & Sh). rewrite (C6 A2) in Sh. destruct Sh as [_ Sh].
  destruct (r_sh r1) eqn:E; [split; congruence|].
  destruct (Sh eq_refl) as (x & X). rewrite X in C4, D4.
  destruct C4 as [->|[]], D4 as [->|[]]. congruence.
Qed.

(* there is one structure for a resource, on one of the lists *)
Theorem C28_one_resource s r1 r2 :
  rreach alone s -> In r1 (s_res s) -> In r2 (s_res s) -> r_key r1 = r_key r2 -> r1 = r2.
Proof.
  intros R H1 H2 E. exact (NoDup_map_inj _ _ _ _ (RI_keys _ (rreach_inv _ R)) H1 H2 E).
Qed.

(* while a resource is being acquired, or released on disk, or is an orphan that was not
   asked for, no acquire gets through *)
Theorem C28_no_acquire_meanwhile s i k sh per flags s' r :
  rreach alone s -> In r (s_res s) -> r_key r = k ->
  (r_list r = LAdd \/ r_list r = LRem \/ (r_list r = LOrphan /\ has flags 6 = false)) ->
  rstep s (OAcquire i k sh per flags) = Some s' -> s' = s.
Proof.
  intros R Hr K L H. cbn in H. destruct (s_tok s i); [discriminate|].
  unfold decide in H.
  destruct (find_resource k LRem (s_res s)) eqn:E1; [congruence|].
  destruct (find_resource k LAdd (s_res s)) eqn:E2; [congruence|].
  pose proof (find_resource_None _ _ _ _ E1 Hr K). pose proof (find_resource_None _ _ _ _ E2 Hr K).
  destruct L as [L|[L|[L F]]]; [congruence|congruence|].
  destruct (find_resource k LHeld (s_res s)) as [r1|] eqn:E3.
  { apply find_resource_In in E3 as (X & Y & Z). assert (r1 = r); [|congruence].
    eapply C28_one_resource; eauto. congruence. }
  destruct (find_resource k LOrphan (s_res s)) as [r1|] eqn:E4.
  - change (N.lor ACQUIRE_ORPHAN ACQUIRE_ORPHAN_ONLY) with 6 in H. rewrite F in H. cbn in H. congruence.
  - pose proof (find_resource_None _ _ _ _ E4 Hr K). congruence.
Qed.

(* ------------------------------------------------------- concrete runs *)

Definition modes (o : option rst) (l : list N) : option (list (option (N * bool * bool))) :=
  match o with
  | Some s => Some (map (fun i => match s_tok s i with
                                  | Some t => Some (t_key t, t_ok t, t_sh t)
                                  | None => None end) l)
  | None => None
  end.

(* two shared holders, one leaves, the other converts to exclusive and back, dies with
   a persistent lease that is then adopted *)
Example C28_nonvacuous :
  modes (rrun rinit [OAcquire 1 7 true false 0; OAcqOk 1; OAcquire 2 7 true true 0; ORelease 1;
                     OConvert 2 true; OConvEnd 2 true; OAcquire 3 7 false false 0;
                     OAsync 2; OAcquire 4 7 false false 2]) [1; 2; 3; 4] =
  Some [None; None; None; Some (7, true, false)].
Proof. vm_compute. reflexivity. Qed.

(* The code has no such condition: sh_count is computed (1562-1570) and not compared
   with 1.  Process 2 keeps its shared lease while process 1 gets the exclusive one. *)
Theorem C28_refuted : ~ C28_statement.
Proof.
  intros H.
  pose (l := [OAcquire 1 7 true false 0; OAcqOk 1; OAcquire 2 7 true false 0;
              OConvert 1 true; OConvEnd 1 true]).
  destruct (rrun rinit l) as [s|] eqn:E; [|vm_compute in E; discriminate].
  pose proof (rrun_reach _ _ _ (rr_init _) E) as R.
  assert (M : modes (rrun rinit l) [1; 2] = Some [Some (7, true, false); Some (7, true, true)])
    by (vm_compute; reflexivity).
  rewrite E in M. cbn in M. clear E.
  destruct (s_tok s 1) as [t1|] eqn:T1; [|discriminate].
  destruct (s_tok s 2) as [t2|] eqn:T2; [|discriminate].
  injection M as A1 A2 A3 B1 B2 B3.
  destruct (H s R 1 2 7 false true ltac:(discriminate)) as [X _]; [| |discriminate].
  - exists t1. auto.
  - exists t2. auto.
Qed.

(* It would not help to check when the conversion starts: the second shared holder may
   come while the conversion is on the disk. *)
Theorem C28_refuted_late :
  modes (rrun rinit [OAcquire 1 7 true false 0; OAcqOk 1; OConvert 1 true;
                     OAcquire 2 7 true false 0; OConvEnd 1 true]) [1; 2] =
  Some [Some (7, true, false); Some (7, true, true)].
Proof. vm_compute. reflexivity. Qed.

Print Assumptions C28_local_exclusion_partial.
Print Assumptions C28_one_resource.
Print Assumptions C28_no_acquire_meanwhile.
Print Assumptions C28_refuted.
