(* C81: a request signals the process that holds the lease, respects what that process
   restricted, and runs the program that process gave. *)
From Coq Require Import List NArith ZArith Lia Bool Arith.
From Verif Require Import Bytes Codec Leader LeaderReadNum Acquire Request Resources ReqTarget.
Import ListNotations.
Open Scope N_scope.

(* ---- specification ---- *)
(* a process holds resource k: acquire has been granted for its token i *)
Definition holder (x : xst) (k i : N) (p : proc) : Prop :=
  exists t, s_tok (x_s x) i = Some t /\ t_ok t = true /\ t_key t = k /\ x_t x i = p.
Definition exclusive (x : xst) (k : N) : Prop :=
  forall i t, s_tok (x_s x) i = Some t -> t_key t = k -> t_sh t = false.

(* the action is right for process p: its own pid; a signal it restricted only if it
   restricted both; its own program *)
Definition aimed (a : kill_action) (path : N) (p : proc) : Prop :=
  match a with
  | SendKill q => q = p_pid p /\ (p_rk p = true -> p_rt p = true)
  | SendTerm q => q = p_pid p /\ (p_rt p = true -> p_rk p = true)
  | RunPath => path = p_path p /\ path <> 0
  end.

(* registered processes have a positive pid *)
Definition registered (x : xst) (o : rop) (p : proc) : Prop := (0 < p_pid p)%Z.

Definition C81_statement : Prop :=
  forall x1 l x2 k lver rd a path,
    xreach registered x1 -> xrun x1 l = Some x2 -> xreach registered x2 ->
    x_examine k lver rd x1 x2 = Some (a, path) ->
    exists i p, holder x2 k i p /\ aimed a path p.

(* ---- what holds ---- *)
Definition plain_registered (b : bool) (x : xst) (o : rop) (p : proc) : Prop :=
  plain b x o p /\ (0 < p_pid p)%Z.

Lemma plain_weaken b x : xreach (plain_registered b) x -> xreach (plain b) x.
Proof. induction 1 as [|x o p x' R IH [P _] E]; [constructor|]. exact (xr_step _ _ _ _ _ IH P E). Qed.

Definition req_ok (r : request) : Prop :=
  rr_magic r = 0x08292011 /\ N.land (rr_version r) 0xFFFF0000 = 0x00010000 /\
  rr_force_mode r <> 0 /\ rr_lver r <> 0.

Lemma examine_cases h1 rd h2 a :
  examine h1 rd (Some h2) = Some a ->
  h_pid h2 = h_pid h1 /\
  (a = SendKill (h_pid h2) /\ (h_norestrict_kill h2 = true \/ h_norestrict_term h2 = false) \/
   a = SendTerm (h_pid h2) /\ (h_norestrict_term h2 = true \/ h_norestrict_kill h2 = false) \/
   a = RunPath /\ h_path h2 = true).
Proof.
  unfold examine, do_request. destruct (resource_thread_examine rd (h_lver h1)) as [fm|]; [|discriminate].
  destruct (negb (h_pid h2 =? h_pid h1)%Z) eqn:E; [discriminate|].
  assert (P : h_pid h2 = h_pid h1) by (apply negb_false_iff, Z.eqb_eq in E; exact E).
  intros H. split; [exact P|]. rewrite P.
  destruct (fm =? SANLK_REQ_FORCE).
  - injection H as <-. destruct (h_norestrict_kill h2); auto.
  - destruct (fm =? SANLK_REQ_GRACEFUL); [|discriminate H]. injection H as <-.
    destruct (h_path h2); [auto|]. destruct (h_norestrict_term h2); auto.
Qed.

(* As long as no lease is upgraded from shared to exclusive, a request for a lease held
   exclusively signals its holder, a single process with a positive pid.  If moreover
   no orphan is adopted, the restrictions and the program are the holder's own.
   Missing: shared leases, upgraded leases, the restrictions of an adopting process. *)
Theorem C81_exclusive_partial :
  forall b x1 x2 k lver rd a path,
    xreach (plain_registered b) x2 -> exclusive x2 k ->
    x_examine k lver rd x1 x2 = Some (a, path) ->
    exists i p, holder x2 k i p /\ (forall j q, holder x2 k j q -> j = i) /\ (0 < p_pid p)%Z /\
      (forall q, a = SendKill q \/ a = SendTerm q -> q = p_pid p) /\
      (b = true -> aimed a path p).
Proof.
  intros b x1 x2 k lver rd a path R Ex H.
  pose proof (xreach_inv _ _ (plain_weaken _ _ R)) as [IR IN].
  unfold x_examine in H.
  destruct (find_resource k LHeld (s_res (x_s x1))) as [r1|]; [|discriminate H].
  destruct (find_resource k LHeld (s_res (x_s x2))) as [r2|] eqn:F2; [|discriminate H].
  destruct (examine (held_of x1 lver r1) rd (Some (held_of x2 lver r2))) as [a0|] eqn:EX; [|discriminate H].
  injection H as <- <-.
  apply find_resource_In in F2 as (A1 & A2 & A3).
  destruct (RI_res _ IR r2 A1) as (_ & Q1 & Q2). rewrite A3 in Q2. destruct Q2 as [Q2 Q3].
  assert (Sh : r_sh r2 = false).
  { destruct (r_toks r2) as [|i ts] eqn:T; [contradiction|].
    destruct (Q1 i (or_introl eq_refl)) as (t & T1 & T2).
    destruct (RI_tok _ IR i t T1) as (r & B1 & B2 & B3 & _ & B4 & _).
    assert (r = r2) by (apply (NoDup_map_inj _ _ _ _ (RI_ids _ IR) B1 A1); congruence). subst r.
    rewrite B4. apply (Ex i t T1). congruence. }
  destruct (Q3 Sh) as (i & T).
  assert (I : In i (r_toks r2)) by (rewrite T; left; reflexivity).
  destruct (Q1 i I) as (t & T1 & T2).
  destruct (RI_tok _ IR i t T1) as (r & B1 & B2 & B3 & B5 & B4 & B6 & B7).
  assert (r = r2) by (apply (NoDup_map_inj _ _ _ _ (RI_ids _ IR) B1 A1); congruence). subst r.
  assert (Ok : t_ok t = true).
  { destruct (t_ok t); [reflexivity|]. rewrite (B7 eq_refl) in A3. discriminate A3. }
  exists i, (x_t x2 i).
  split; [exists t; split; [exact T1|]; split; [exact Ok|]; split; [congruence|reflexivity]|].
  split.
  { intros j q (t' & T1' & Ok' & K' & _).
    destruct (RI_tok _ IR j t' T1') as (r & D1 & D2 & D3 & D4 & _).
    assert (r = r2) by (apply (NoDup_map_inj _ _ _ _ (RI_keys _ IR) D1 A1); congruence). subst r.
    rewrite T in D4. destruct D4 as [D4|[]]. congruence. }
  split.
  { apply (xreach_pids (plain_registered b)); [intros ? ? ? [_ X]; exact X|exact R|congruence]. }
  destruct (IN r2 i A1 Sh I) as [N1 N2].
  destruct (examine_cases _ _ _ _ EX) as [_ C]. cbn [held_of h_pid h_norestrict_kill h_norestrict_term h_path] in C.
  rewrite N1 in C. split.
  - intros q Hq. destruct C as [[-> _]|[[-> _]|[-> _]]]; destruct Hq as [Hq|Hq]; try discriminate Hq; injection Hq as <-; reflexivity.
  - intros B. destruct (N2 B) as (E1 & E2 & E3). rewrite E1, E2, E3 in C.
    destruct C as [[-> C]|[[-> C]|[-> C]]]; cbn.
    + split; [reflexivity|]. intros K. rewrite K in C. cbn in C. destruct C as [C|C]; [discriminate C|]. destruct (p_rt (x_t x2 i)); [reflexivity|discriminate C].
    + split; [reflexivity|]. intros K. rewrite K in C. cbn in C. destruct C as [C|C]; [discriminate C|]. destruct (p_rk (x_t x2 i)); [reflexivity|discriminate C].
    + rewrite E3. split; [reflexivity|]. intros Z0. rewrite Z0 in C. discriminate C.
Qed.

(* And it does signal: while a lease is held, a forced or graceful request newer than the
   version held leads to an action. *)
Theorem C81_held_is_signalled :
  forall b x k i p lver req,
    xreach (plain_registered b) x -> holder x k i p ->
    req_ok req -> lver < rr_lver req -> rr_force_mode req = 1 \/ rr_force_mode req = 2 ->
    exists a path, x_examine k lver (1%Z, req) x x = Some (a, path).
Proof.
  intros b x k i p lver req R (t & T & Ok & K & _) (M & V & FM & LV) NL FV.
  pose proof (xreach_inv _ _ (plain_weaken _ _ R)) as [IR IN].
  destruct (RI_tok _ IR i t T) as (r & B1 & B2 & B3 & _ & _ & B6 & _).
  unfold x_examine. destruct (find_resource k LHeld (s_res (x_s x))) as [r2|] eqn:F.
  2:{ exfalso. refine (find_resource_None _ _ _ _ F B1 _ (B6 Ok)). congruence. }
  unfold examine, resource_thread_examine, do_request. cbn [fst snd held_of h_lver h_pid].
  unfold REQ_DISK_MAGIC, REQ_DISK_VERSION_MAJOR. rewrite M, V, !N.eqb_refl, Z.eqb_refl. cbn [negb].
  change (1 <? 0)%Z with false. cbv iota.
  replace ((rr_force_mode req =? 0) || (rr_lver req =? 0)) with false
    by (symmetry; apply orb_false_iff; split; apply N.eqb_neq; assumption).
  replace (rr_lver req <=? lver) with false by (symmetry; apply N.leb_gt; exact NL).
  destruct FV as [FV|FV]; rewrite FV; eexists; eexists; reflexivity.
Qed.

(* ---- shared leases ---- *)
(* no exclusive orphan with identity [id] is adopted in a run *)
Fixpoint unadopted (x : xst) (l : list (rop * proc)) (id : N) : Prop :=
  match l with
  | [] => True
  | (o, p) :: r =>
    match o with
    | OAcquire i k sh per fl => forall q, decide (s_res (x_s x)) k sh fl = DAdopt q -> r_id q = id -> r_sh q = true
    | _ => True
    end /\
    match xstep x o p with Some x' => unadopted x' r id | None => True end
  end.

Lemma unadopted_ext l : forall x x' id,
  xrun x l = Some x' -> unadopted x l id -> id < s_next (x_s x) -> x_r x' id = x_r x id.
Proof.
  induction l as [|[o p] l IH]; cbn; intros x x' id H U L; [injection H as <-; reflexivity|].
  destruct U as [U1 U2].
  destruct (xstep x o p) as [x1|] eqn:E; [|discriminate H].
  pose proof (rstep_next _ _ _ (xstep_lists _ _ _ _ E)) as NX.
  rewrite (IH _ _ _ H U2); [|lia]. apply (xstep_ext _ _ _ _ _ E).
  destruct o as [i k sh per fl| | | | | | | | | | | ]; cbn; auto.
  destruct (decide (s_res (x_s x)) k sh fl) as [e|q|q|] eqn:D; auto; [|lia].
  intros [A B]. rewrite (U1 q eq_refl A) in B. discriminate B.
Qed.

(* A lease acquired shared and later held, still shared or upgraded to exclusive by any
   sequence of steps: a forced request newer than the version held makes the helper
   call kill(0, SIGKILL), which reaches the helper and the daemon, which forked it. *)
Theorem C81_shared_request_reaches_daemon :
  forall x0 i k per fl p x1 l x2 r lver req procs group daemon helper,
    s_tok (x_s x0) i = None ->
    decide (s_res (x_s x0)) k true fl = DCreate ->
    xstep x0 (OAcquire i k true per fl) p = Some x1 ->
    xrun x1 l = Some x2 -> unadopted x1 l (s_next (x_s x0)) ->
    find_resource k LHeld (s_res (x_s x2)) = Some r -> r_id r = s_next (x_s x0) ->
    req_ok req -> lver < rr_lver req ->
    forked procs group daemon helper ->
    (rr_force_mode req = 1 -> x_examine k lver (1%Z, req) x2 x2 = Some (SendKill 0, p_path p)) /\
    (rr_force_mode req = 2 -> p_path p = 0 -> x_examine k lver (1%Z, req) x2 x2 = Some (SendTerm 0, 0)) /\
    In daemon (signalled procs group helper 0) /\ In helper (signalled procs group helper 0).
Proof.
  intros x0 i k per fl p x1 l x2 r lver req procs group daemon helper T D S1 RN U F Id (M & V & FM & LV) NL (G1 & G2 & G3).
  assert (X1 : x_r x1 (s_next (x_s x0)) = mkRext 0 false false (p_path p) /\ s_next (x_s x0) < s_next (x_s x1)).
  { unfold xstep in S1. cbn [rstep] in S1. rewrite T, D in S1. injection S1 as <-. cbn [x_r x_s s_next].
    split; [apply set_x_same|lia]. }
  destruct X1 as [X1 Lt].
  pose proof (unadopted_ext _ _ _ _ RN U Lt) as X2. rewrite X1 in X2.
  assert (Hd : held_of x2 lver r = mkHeld 0 lver true true (negb (p_path p =? 0))).
  { unfold held_of. rewrite Id, X2. reflexivity. }
  unfold x_examine. rewrite F, Hd, Id, X2. cbn [x_path].
  unfold examine, resource_thread_examine. cbn [fst snd h_lver].
  unfold REQ_DISK_MAGIC, REQ_DISK_VERSION_MAJOR. rewrite M, V, !N.eqb_refl. cbn [negb].
  change (1 <? 0)%Z with false. cbv iota.
  replace ((rr_force_mode req =? 0) || (rr_lver req =? 0)) with false
    by (symmetry; apply orb_false_iff; split; apply N.eqb_neq; assumption).
  replace (rr_lver req <=? lver) with false by (symmetry; apply N.leb_gt; exact NL).
  split; [intros ->; reflexivity|]. split; [intros -> ->; reflexivity|].
  unfold signalled. change (0 <? 0)%Z with false. change (0 =? 0)%Z with true. cbv iota.
  split; apply filter_In; (split; [assumption|]); apply Z.eqb_eq; congruence.
Qed.

(* ---- concrete runs ---- *)
Definition A : proc := mkProc 100 false false 0.
Definition B : proc := mkProc 200 true false 8.
Definition req6 (f : N) : request :=
  {| rr_magic := 0x08292011; rr_version := 0x00010001; rr_lver := 6; rr_force_mode := f |}.
Definition act (l : list (rop * proc)) (f : N) : option (option (kill_action * N)) :=
  match xrun xinit l with Some x => Some (x_examine 7 5 (1%Z, req6 f) x x) | None => None end.

(* an exclusive holder is signalled, or its program run *)
Example C81_nonvacuous :
  act [(OAcquire 1 7 false false 0, A); (OAcqOk 1, A)] 1 = Some (Some (SendKill 100, 0)) /\
  act [(OAcquire 1 7 false false 0, B); (OAcqOk 1, B)] 1 = Some (Some (SendTerm 200, 8)) /\
  act [(OAcquire 1 7 false false 0, B); (OAcqOk 1, B)] 2 = Some (Some (RunPath, 8)) /\
  act [(OAcquire 1 7 false true 0, A); (OAcqOk 1, A); (OAsync 1, A); (OAcquire 2 7 false false 2, B)] 1 =
    Some (Some (SendKill 200, 0)) /\
  act [(OAcquire 1 7 false false 0, A); (OAcqOk 1, A); (ORelease 1, A)] 1 = Some None.
Proof. vm_compute. repeat split; reflexivity. Qed.

Definition xA : xst :=
  mkXst (mkRst 1 [mkRes 0 7 LHeld false true false [1]] (set_tok (set_tok (fun _ => None) 1 (Some (mkTok 0 7 false false false false None))) 1
                    (Some (mkTok 0 7 false false false true None))))
        (set_x (fun _ => mkRext 0 false false 0) 0 (mkRext 100 false false 0))
        (set_x (fun _ => mkProc 0 false false 0) 1 A).
Example C81_nonvacuous_exclusive :
  xreach (plain_registered true) xA /\ exclusive xA 7 /\
  x_examine 7 5 (1%Z, req6 1) xA xA = Some (SendKill 100, 0).
Proof.
  split; [|split].
  - eapply (xr_step _ _ (OAcqOk 1) A).
    + eapply (xr_step _ xinit (OAcquire 1 7 false false 0) A).
      * apply xr_init.
      * split; [split; [exact I|]|reflexivity]. intros _ r. vm_compute. discriminate.
      * vm_compute. reflexivity.
    + split; [split; [exact I|]|reflexivity]. intros _. exact I.
    + vm_compute. reflexivity.
  - intros i t H _. unfold xA in H. cbn [x_s s_tok] in H. unfold set_tok in H.
    destruct (i =? 1); [|discriminate H]. injection H as <-. reflexivity.
  - vm_compute. reflexivity.
Qed.

Lemma xrun_reach l : forall x x', xreach registered x -> Forall (fun op => (0 < p_pid (snd op))%Z) l ->
  xrun x l = Some x' -> xreach registered x'.
Proof.
  induction l as [|[o p] l IH]; cbn; intros x x' R F H; [injection H as <-; exact R|].
  destruct (xstep x o p) as [x1|] eqn:E; [|discriminate H].
  inversion F; subst. eapply IH; [|eassumption|exact H]. eapply xr_step; [exact R| |exact E]. assumption.
Qed.

(* a shared lease upgraded to exclusive by its only holder: the signal is for pid 0 *)
Definition upgrade : list (rop * proc) :=
  [(OAcquire 1 7 true false 0, A); (OAcqOk 1, A); (OConvert 1 true, A); (OConvEnd 1 true, A)].
Lemma unadopted_noacquire l : forall x id,
  Forall (fun op => match fst op with OAcquire _ _ _ _ _ => False | _ => True end) l -> unadopted x l id.
Proof.
  induction l as [|[o p] l IH]; intros x id F; [exact I|]. inversion F; subst.
  cbn [unadopted]. split; [destruct o; [contradiction|exact I..]|].
  destruct (xstep x o p); [apply IH; assumption|exact I].
Qed.
Example C81_nonvacuous_shared :
  exists x1 x2 r,
    decide (s_res (x_s xinit)) 7 true 0 = DCreate /\
    xstep xinit (OAcquire 1 7 true false 0) A = Some x1 /\ xrun x1 (tl upgrade) = Some x2 /\
    unadopted x1 (tl upgrade) (s_next (x_s xinit)) /\
    find_resource 7 LHeld (s_res (x_s x2)) = Some r /\ r_id r = s_next (x_s xinit) /\ r_sh r = false /\
    req_ok (req6 1) /\ forked [10; 11; 100]%Z (fun q => if (q =? 100)%Z then 100 else 10)%Z 10 11.
Proof.
  assert (V : match xrun xinit upgrade with
              | Some x => find_resource 7 LHeld (s_res (x_s x)) = Some (mkRes 0 7 LHeld false true false [1])
              | None => False end) by (vm_compute; reflexivity).
  unfold upgrade in V. cbn [xrun] in V.
  destruct (xstep xinit (OAcquire 1 7 true false 0) A) as [x1|] eqn:E1; [|contradiction].
  change (match xrun x1 (tl upgrade) with
          | Some x => find_resource 7 LHeld (s_res (x_s x)) = Some (mkRes 0 7 LHeld false true false [1])
          | None => False end) in V.
  destruct (xrun x1 (tl upgrade)) as [x2|] eqn:E2; [|contradiction].
  exists x1, x2, (mkRes 0 7 LHeld false true false [1]).
  split; [reflexivity|]. split; [reflexivity|]. split; [exact E2|].
  split; [apply unadopted_noacquire; repeat apply Forall_cons; try apply Forall_nil; exact I|].
  split; [exact V|]. split; [reflexivity|]. split; [reflexivity|].
  split; [split; [reflexivity|]; split; [reflexivity|]; split; discriminate|].
  split; [left; reflexivity|]. split; [right; left; reflexivity|reflexivity].
Qed.
Theorem C81_refuted : ~ C81_statement.
Proof.
  intros H.
  destruct (xrun xinit upgrade) as [x|] eqn:E; [|vm_compute in E; discriminate E].
  assert (R : xreach registered x).
  { refine (xrun_reach upgrade xinit x (xr_init _) _ E). repeat apply Forall_cons; try apply Forall_nil; reflexivity. }
  assert (EX : act upgrade 1 = Some (Some (SendKill 0, 0))) by (vm_compute; reflexivity).
  unfold act in EX. rewrite E in EX. injection EX as EX.
  destruct (H x [] x 7 5 (1%Z, req6 1) (SendKill 0) 0 R eq_refl R EX) as (i & p & (t & T & _ & _ & X) & [P _]).
  assert (Pos : (0 < p_pid (x_t x i))%Z).
  { apply (xreach_pids registered); [intros ? ? ? Q; exact Q|exact R|congruence]. }
  rewrite X, <- P in Pos. discriminate Pos.
Qed.

(* the first holder went from exclusive to shared and left; the second upgraded: the
   process that left is signalled *)
Theorem C81_former_holder_signalled :
  act [(OAcquire 1 7 false false 0, A); (OAcqOk 1, A); (OConvert 1 false, A); (OConvEnd 1 true, A);
       (OAcquire 2 7 true false 0, B); (ORelease 1, A); (OConvert 2 true, B); (OConvEnd 2 true, B)] 1 =
  Some (Some (SendKill 100, 0)).
Proof. vm_compute. reflexivity. Qed.

(* an adopted orphan keeps the restrictions and the program of the dead process: B, which
   restricts SIGKILL, gets it; A gets the program of B *)
Theorem C81_adopted_restrictions :
  act [(OAcquire 1 7 false true 0, A); (OAcqOk 1, A); (OAsync 1, A); (OAcquire 2 7 false false 2, B)] 1 =
    Some (Some (SendKill 200, 0)) /\ p_rk B = true /\ p_rt B = false /\
  act [(OAcquire 1 7 false true 0, B); (OAcqOk 1, B); (OAsync 1, B); (OAcquire 2 7 false false 2, A)] 2 =
    Some (Some (RunPath, 8)) /\ p_path A = 0.
Proof. vm_compute. repeat split; reflexivity. Qed.

Print Assumptions C81_exclusive_partial.
Print Assumptions C81_held_is_signalled.
Print Assumptions C81_shared_request_reaches_daemon.
Print Assumptions C81_refuted.
Print Assumptions C81_former_holder_signalled.
Print Assumptions C81_adopted_restrictions.
