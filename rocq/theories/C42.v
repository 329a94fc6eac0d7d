(* C42: killing escalates to SIGKILL and respects the restrictions. *)
From Coq Require Import List ZArith Lia Bool Arith ZifyBool ZifyNat.
From Verif Require Import Timeouts KillPids.
Import ListNotations.
Open Scope Z_scope.

(* ---------------- specification ---------------- *)
(* client i is a running process with leases in the lockspace, not yet signalled *)
Definition fresh_user (s : ksys) (i : nat) (c : kcl) : Prop :=
  nth_error (kw_cls s) i = Some c /\ k_used c = true /\ 0 < k_pid c /\ k_using c = true /\ k_count c = 0%nat.
(* the process neither exits nor gives up its leases *)
Definition stays (i : nat) (evs : list kev) : Prop :=
  forall ev, In ev evs -> ev <> KGone i /\ ev <> KDrop i.
Fixpoint rounds (evs : list kev) : list kenv :=
  match evs with [] => [] | KRound e _ :: r => e :: rounds r | _ :: r => rounds r end.
Fixpoint increasing (l : list Z) : Prop :=
  match l with [] => True | x :: r => match r with [] => True | y :: _ => x < y end /\ increasing r end.

(* Escalation: with a helper that takes every message, a process that stays is sent
   SIGKILL once enough rounds have passed, if it did not restrict SIGKILL. *)
Definition C42_escalates : Prop := forall g s i c,
  0 <= c_grace g <= 60 -> 0 < c_io g -> kw_killing s = 1%nat -> kw_left s = false -> fresh_user s i c -> k_rkill c = false ->
  exists n, forall evs, stays i evs -> increasing (map e_now (rounds evs)) ->
    (forall e, In e (rounds evs) -> e_helper e i = true) ->
    (n <= length (rounds evs))%nat -> In KKill (snd (krun g s evs i)).
(* Restriction: never SIGKILL for a process that restricted it. *)
Definition C42_restricts : Prop := forall g s i c evs,
  nth_error (kw_cls s) i = Some c -> k_rkill c = true -> ~ In KKill (snd (krun g s evs i)).
Definition C42_statement : Prop := C42_escalates /\ C42_restricts.

(* ---------------- lemmas ---------------- *)
Lemma kill_all_nth : forall g e cls k i, nth_error (kill_all g e k cls) i =
  option_map (kill_one g e (e_helper e (k + i))) (nth_error cls i).
Proof.
  intros g e cls. induction cls as [|c r IH]; intros k [|i]; cbn [kill_all nth_error option_map]; auto.
  - rewrite Nat.add_0_r. reflexivity.
  - rewrite IH. replace (S k + i)%nat with (k + S i)%nat by lia. reflexivity.
Qed.
Lemma nth_firstn : forall A (l : list A) n i, (i < n)%nat -> nth_error (firstn n l) i = nth_error l i.
Proof. induction l as [|y l IH]; intros [|n] [|i] L; cbn; auto; try lia. apply IH. lia. Qed.
Lemma nth_skipn : forall A (l : list A) n i, nth_error (skipn n l) i = nth_error l (n + i).
Proof. induction l as [|y l IH]; intros [|n] i; cbn; auto. destruct i; reflexivity. Qed.
Lemma nth_upd : forall l i j f, nth_error (upd l i f) j = if Nat.eqb i j then option_map f (nth_error l j) else nth_error l j.
Proof.
  intros l i j f. unfold upd. destruct (nth_error l i) as [x|] eqn:E.
  - assert (Li : (i < length l)%nat) by (apply nth_error_Some; congruence).
    assert (Lf : length (firstn i l) = i) by (rewrite firstn_length; lia).
    destruct (Nat.eqb i j) eqn:EJ.
    + apply Nat.eqb_eq in EJ. subst j. rewrite nth_error_app2 by lia. rewrite Lf, Nat.sub_diag, E. reflexivity.
    + apply Nat.eqb_neq in EJ. destruct (le_lt_dec i j) as [G|L].
      * rewrite nth_error_app2 by lia. rewrite Lf. destruct (j - i)%nat as [|k] eqn:D; [lia|]. cbn [nth_error].
        rewrite nth_skipn. f_equal. lia.
      * rewrite nth_error_app1 by lia. apply nth_firstn. exact L.
  - destruct (Nat.eqb i j) eqn:EJ; [|reflexivity]. apply Nat.eqb_eq in EJ. subst j. rewrite E. reflexivity.
Qed.

(* kill_one keeps who the client is and counts at most one attempt *)
Lemma kill_one_spec : forall g e ok c, let '(c', o) := kill_one g e ok c in
  k_used c' = k_used c /\ k_pid c' = k_pid c /\ k_using c' = k_using c /\ k_rkill c' = k_rkill c /\ k_rterm c' = k_rterm c /\
  k_killpath c' = k_killpath c /\
  ((k_count c' = k_count c /\ k_last c' = k_last c) \/ (k_count c' = S (k_count c) /\ k_last c' = e_now e)) /\
  (k_rkill c = true -> k_rterm c = false -> o <> Some KKill).
Proof.
  intros g e ok c. unfold kill_one.
  destruct (negb (k_used c)); [repeat split; auto; discriminate|].
  destruct (k_pid c <=? 0); [repeat split; auto; discriminate|].
  destruct (Nat.leb kill_count_max (k_count c)); [repeat split; auto; discriminate|].
  destruct (negb (Nat.eqb (k_count c) 0) && _); [repeat split; auto; discriminate|].
  destruct (negb (k_using c)); [repeat split; auto; discriminate|].
  set (c1 := mkKcl _ _ _ _ _ _ _ _ _).
  assert (R : k_rkill c = true -> k_rterm c = false -> choose_sig g e c1 <> KKill).
  { intros RK RT. unfold choose_sig, c1; cbn [k_rkill k_rterm k_killpath]. rewrite RK, RT.
    destruct (e_remove e || _); [discriminate|]. destruct ((0 <? c_grace g) && _ && _); [discriminate|].
    destruct (_ <? _); discriminate. }
  unfold send_helper_kill. destruct (choose_sig g e c1) eqn:CS.
  - destruct ok; repeat split; auto; intros; discriminate.
  - destruct ok; repeat split; auto; intros RK RT; exfalso; exact (R RK RT eq_refl).
  - destruct (k_runsent c1); [|destruct ok]; repeat split; auto; intros; discriminate.
Qed.

(* ---------------- restriction ---------------- *)
Theorem C42_restricts_partial : forall g evs s i c,
  nth_error (kw_cls s) i = Some c -> k_rkill c = true -> k_rterm c = false ->
  ~ In KKill (snd (krun g s evs i)).
Proof.
  intros g evs. induction evs as [|ev evs IH]; intros s i c N RK RT; cbn [krun]. { cbn. tauto. }
  destruct (kstep g s ev) as [s1 o] eqn:ES. destruct (krun g s1 evs i) as [s2 sg] eqn:ER. cbn [snd].
  assert (G : (forall x, nth_error (kw_cls s1) i = Some x -> (k_rkill x = true /\ k_rterm x = false) \/ k_used x = false) /\ ~ In KKill (sent_to i o)).
  { destruct ev as [e b|j|j|j t]; cbn [kstep] in ES.
    - destruct (kw_left s). { injection ES as <- <-. split; [intros x; rewrite N; intros [= <-]; auto|]. unfold sent_to. destruct i; cbn; tauto. }
      destruct (all_pids_dead b (kw_killing s) (kw_cls s)) as [k d]. destruct d.
      { injection ES as <- <-. cbn [kw_cls]. split; [intros x; rewrite N; intros [= <-]; auto|]. unfold sent_to. destruct i; cbn; tauto. }
      injection ES as <- <-. cbn [kw_cls]. unfold kill_pids. destruct (Nat.ltb 1 k).
      { rewrite !map_map. cbn [fst snd]. rewrite map_id. split; [intros x; rewrite N; intros [= <-]; auto|].
        unfold sent_to. rewrite nth_error_map, N. cbn. tauto. }
      pose proof (kill_one_spec g e (e_helper e i) c) as KS. destruct (kill_one g e (e_helper e i) c) as [c' o'] eqn:KE.
      destruct KS as (_ & _ & _ & K1 & K2 & _ & _ & K3). split.
      + intros x. rewrite nth_error_map, kill_all_nth, N. cbn [option_map plus]. rewrite KE. cbn [fst]. intros [= <-]. left. split; congruence.
      + unfold sent_to. rewrite nth_error_map, kill_all_nth, N. cbn [option_map plus]. rewrite KE. cbn [snd].
        destruct o' as [sg'|]; cbn; [|tauto]. intros [->|[]]. exact (K3 RK RT eq_refl).
    - injection ES as <- <-. cbn [kw_cls]. split; [|unfold sent_to; destruct i; cbn; tauto].
      intros x. rewrite nth_upd, N. destruct (Nat.eqb j i); cbn; intros [= <-]; auto.
    - injection ES as <- <-. cbn [kw_cls]. split; [|unfold sent_to; destruct i; cbn; tauto].
      intros x. rewrite nth_upd, N. destruct (Nat.eqb j i); cbn; intros [= <-]; auto.
    - injection ES as <- <-. cbn [kw_cls]. split; [|unfold sent_to; destruct i; cbn; tauto].
      intros x. rewrite nth_upd, N. destruct (Nat.eqb j i); cbn; intros [= <-]; auto. }
  destruct G as (G1 & G2).
  assert (L1 : exists x, nth_error (kw_cls s1) i = Some x).
  { destruct ev as [e b|j|j|j t]; cbn [kstep] in ES.
    - destruct (kw_left s). { injection ES as <- <-. eauto. }
      destruct (all_pids_dead b (kw_killing s) (kw_cls s)) as [k d]. destruct d. { injection ES as <- <-. eauto. }
      injection ES as <- <-. cbn [kw_cls]. unfold kill_pids. destruct (Nat.ltb 1 k).
      + rewrite map_map. cbn [fst]. rewrite map_id. eauto.
      + rewrite nth_error_map, kill_all_nth, N. cbn. eauto.
    - injection ES as <- <-. cbn [kw_cls]. rewrite nth_upd, N. destruct (Nat.eqb j i); cbn; eauto.
    - injection ES as <- <-. cbn [kw_cls]. rewrite nth_upd, N. destruct (Nat.eqb j i); cbn; eauto.
    - injection ES as <- <-. cbn [kw_cls]. rewrite nth_upd, N. destruct (Nat.eqb j i); cbn; eauto. }
  destruct L1 as (x & NX). rewrite in_app_iff. intros [I|I]; [exact (G2 I)|].
  destruct (G1 x NX) as [(A & B)|U].
  - apply (IH s1 i x NX A B). rewrite ER. exact I.
  - (* the slot is empty: nothing is sent for it any more *)
    assert (Z : forall evs s x, nth_error (kw_cls s) i = Some x -> k_used x = false -> ~ In KKill (snd (krun g s evs i))).
    { clear. intros evs. induction evs as [|ev evs IH]; intros s x N U; cbn [krun]. { cbn. tauto. }
      destruct (kstep g s ev) as [s1 o] eqn:ES. destruct (krun g s1 evs i) as [s2 sg] eqn:ER. cbn [snd].
      assert (G : (exists y, nth_error (kw_cls s1) i = Some y /\ k_used y = false) /\ ~ In KKill (sent_to i o)).
      { destruct ev as [e b|j|j|j t]; cbn [kstep] in ES.
        - destruct (kw_left s). { injection ES as <- <-. split; [eauto|]. unfold sent_to. destruct i; cbn; tauto. }
          destruct (all_pids_dead b (kw_killing s) (kw_cls s)) as [k d]. destruct d.
          { injection ES as <- <-. split; [eauto|]. unfold sent_to. destruct i; cbn; tauto. }
          injection ES as <- <-. cbn [kw_cls]. unfold kill_pids. destruct (Nat.ltb 1 k).
          + rewrite !map_map. cbn [fst snd]. rewrite map_id. split; [eauto|]. unfold sent_to. rewrite nth_error_map, N. cbn. tauto.
          + unfold sent_to. rewrite !nth_error_map, kill_all_nth, N. cbn [option_map]. unfold kill_one. rewrite U. cbn. split; [eauto|tauto].
        - injection ES as <- <-. cbn [kw_cls]. split; [|unfold sent_to; destruct i; cbn; tauto].
          rewrite nth_upd, N. destruct (Nat.eqb j i); cbn; eauto.
        - injection ES as <- <-. cbn [kw_cls]. split; [|unfold sent_to; destruct i; cbn; tauto].
          rewrite nth_upd, N. destruct (Nat.eqb j i); cbn; eauto.
        - injection ES as <- <-. cbn [kw_cls]. split; [|unfold sent_to; destruct i; cbn; tauto].
          rewrite nth_upd, N. destruct (Nat.eqb j i); cbn; eauto. }
      destruct G as ((y & NY & UY) & G2). rewrite in_app_iff. intros [I|I]; [exact (G2 I)|].
      apply (IH s1 y NY UY). rewrite ER. exact I. }
    apply (Z evs s1 x NX U). rewrite ER. exact I.
Qed.

(* ---------------- escalation ---------------- *)
Definition no_other (i : nat) (evs : list kev) : Prop := forall t, ~ In (KOther i t) evs.

(* The state of client i after m rounds: it has been counted at most m times, its
   last attempt is in the past, and the lockspace has not been given up or left. *)
Definition tracked (s : ksys) (i : nat) (m : nat) (last : Z) : Prop :=
  kw_killing s = 1%nat /\ kw_left s = false /\
  exists c, nth_error (kw_cls s) i = Some c /\ k_used c = true /\ 0 < k_pid c /\ k_using c = true /\ k_rkill c = false /\
    (k_count c <= m)%nat /\ (k_count c = 0%nat \/ k_last c <= last).

Lemma live_check : forall cls i c, nth_error cls i = Some c -> k_used c = true -> 0 < k_pid c -> k_using c = true ->
  (k_count c < kill_count_max)%nat -> existsb k_check cls = true.
Proof.
  intros cls i c N U P US K. apply existsb_exists. exists c. split; [eapply nth_error_In; exact N|].
  unfold k_check, k_live. rewrite U, US. apply Nat.leb_gt in K. rewrite K. assert (0 <? k_pid c = true) as -> by lia. reflexivity.
Qed.

(* one round for a tracked client *)
Lemma round_tracked : forall g s i m last e b, tracked s i m last -> (m < kill_count_max)%nat -> last < e_now e ->
  let '(s1, o) := kstep g s (KRound e b) in
  tracked s1 i (S m) (e_now e) /\
  (e_success e + calc_id_renewal_fail_seconds (c_io g) + c_grace g <= e_now e -> e_helper e i = true -> sent_to i o = [KKill]).
Proof.
  intros g s i m last e b (K & L & c & N & U & P & US & RK & CM & LA) M LT. cbn [kstep]. rewrite L.
  assert (CK := live_check _ _ _ N U P US ltac:(unfold kill_count_max in *; lia)).
  unfold all_pids_dead. rewrite K, CK. cbn [negb]. rewrite andb_false_r. cbn [andb]. rewrite andb_false_r. cbn [andb].
  unfold kill_pids. cbn [Nat.ltb Nat.leb].
  assert (KE : exists c', kill_one g e (e_helper e i) c = (c', snd (kill_one g e (e_helper e i) c)) /\
    k_used c' = true /\ 0 < k_pid c' /\ k_using c' = true /\ k_rkill c' = false /\ (k_count c' <= S m)%nat /\ k_last c' = e_now e /\
    (e_success e + calc_id_renewal_fail_seconds (c_io g) + c_grace g <= e_now e -> e_helper e i = true -> snd (kill_one g e (e_helper e i) c) = Some KKill)).
  { unfold kill_one. rewrite U. cbn [negb]. assert (k_pid c <=? 0 = false) as -> by lia.
    assert (Nat.leb kill_count_max (k_count c) = false) as -> by (apply Nat.leb_gt; lia).
    assert (negb (Nat.eqb (k_count c) 0) && (e_now e - k_last c <? 1) = false) as ->.
    { destruct LA as [Z|LA]; [rewrite Z; reflexivity|]. apply andb_false_iff. right. lia. }
    rewrite US. cbn [negb].
    set (c1 := mkKcl _ _ _ _ _ _ _ _ _).
    assert (CSK : e_success e + calc_id_renewal_fail_seconds (c_io g) + c_grace g <= e_now e -> choose_sig g e c1 = KKill).
    { intros D. unfold choose_sig, c1; cbn [k_rkill k_rterm k_killpath]. rewrite RK.
      assert (e_now e <? e_success e + calc_id_renewal_fail_seconds (c_io g) + c_grace g = false) as -> by lia.
      rewrite andb_false_r. cbn [andb]. destruct (e_remove e || _); reflexivity. }
    unfold send_helper_kill. destruct (choose_sig g e c1) eqn:CS.
    - exists c1. split; [reflexivity|]. unfold c1 in *; cbn. repeat split; auto; try lia. intros D. specialize (CSK D). discriminate.
    - exists c1. split; [reflexivity|]. unfold c1 in *; cbn. repeat split; auto; try lia. intros D ->. reflexivity.
    - destruct (k_runsent c1); [|destruct (e_helper e i)]; eexists; (split; [reflexivity|]); unfold c1 in *; cbn; repeat split; auto; try lia;
        intros D; specialize (CSK D); discriminate. }
  destruct KE as (c' & KE & U' & P' & US' & RK' & C' & L' & SK). split.
  - split; [reflexivity|]. split; [reflexivity|]. exists c'. cbn [kw_cls]. rewrite nth_error_map, kill_all_nth, N. cbn [option_map plus].
    rewrite KE. cbn [fst]. split; [reflexivity|]. do 5 (split; [assumption|]). right. lia.
  - intros D H. unfold sent_to. rewrite nth_error_map, kill_all_nth, N. cbn [option_map plus]. rewrite (SK D H). reflexivity.
Qed.

Lemma other_tracked : forall g s i m last ev, tracked s i m last -> (forall e b, ev <> KRound e b) -> ev <> KGone i -> ev <> KDrop i -> (forall t, ev <> KOther i t) ->
  tracked (fst (kstep g s ev)) i m last.
Proof.
  intros g s i m last ev (K & L & c & N & R) NR NG ND NO. destruct ev as [e b|j|j|j t]; cbn [kstep fst].
  - exfalso. exact (NR e b eq_refl).
  - split; [exact K|]. split; [exact L|]. exists c. cbn [kw_cls]. rewrite nth_upd.
    assert (Nat.eqb j i = false) as -> by (apply Nat.eqb_neq; congruence). auto.
  - split; [exact K|]. split; [exact L|]. exists c. cbn [kw_cls]. rewrite nth_upd.
    assert (Nat.eqb j i = false) as -> by (apply Nat.eqb_neq; congruence). auto.
  - split; [exact K|]. split; [exact L|]. exists c. cbn [kw_cls]. rewrite nth_upd.
    assert (Nat.eqb j i = false) as -> by (apply Nat.eqb_neq; intros ->; exact (NO t eq_refl)). auto.
Qed.

Definition kend (g : kcfg) (i : nat) (s : ksys) (evs : list kev) : ksys := fst (krun g s evs i).

Lemma run_tracked : forall g i evs s m last,
  tracked s i m last -> stays i evs -> no_other i evs ->
  (match map e_now (rounds evs) with [] => True | t :: _ => last < t end) -> increasing (map e_now (rounds evs)) ->
  forall k e, nth_error (rounds evs) k = Some e -> (m + k < kill_count_max)%nat ->
    e_success e + calc_id_renewal_fail_seconds (c_io g) + c_grace g <= e_now e -> e_helper e i = true ->
    In KKill (snd (krun g s evs i)).
Proof.
  intros g i evs. induction evs as [|ev evs IH]; intros s m last T ST NO F INC k e NK MK D H. { destruct k; discriminate. }
  cbn [krun]. destruct (kstep g s ev) as [s1 o] eqn:ES. destruct (krun g s1 evs i) as [s2 sg] eqn:ER. cbn [snd]. rewrite in_app_iff.
  assert (ST' : stays i evs) by (intros v I; apply ST; right; exact I).
  assert (NO' : no_other i evs) by (intros t I; apply (NO t); right; exact I).
  destruct (ST ev (or_introl eq_refl)) as (NG & ND).
  destruct ev as [e0 b|j|j|j t].
  - cbn [rounds map] in F, INC, NK. cbn [increasing] in INC. destruct INC as (I1 & I2).
    pose proof (round_tracked g s i m last e0 b T ltac:(lia) F) as RT. rewrite ES in RT. destruct RT as (T1 & SK).
    destruct k as [|k]; cbn [nth_error] in NK.
    + injection NK as ->. left. rewrite (SK D H). left. reflexivity.
    + right. specialize (IH s1 (S m) (e_now e0) T1 ST' NO'). rewrite ER in IH. cbn [snd] in IH.
      apply (IH ltac:(destruct (map e_now (rounds evs)); [exact Logic.I|exact I1]) I2 k e NK ltac:(lia) D H).
  - right. assert (T1 : tracked s1 i m last).
    { replace s1 with (fst (kstep g s (KGone j))) by (rewrite ES; reflexivity). apply other_tracked; auto; congruence. }
    specialize (IH s1 m last T1 ST' NO' F INC k e NK MK D H). rewrite ER in IH. exact IH.
  - right. assert (T1 : tracked s1 i m last).
    { replace s1 with (fst (kstep g s (KDrop j))) by (rewrite ES; reflexivity). apply other_tracked; auto; congruence. }
    specialize (IH s1 m last T1 ST' NO' F INC k e NK MK D H). rewrite ER in IH. exact IH.
  - right. assert (T1 : tracked s1 i m last).
    { replace s1 with (fst (kstep g s (KOther j t))) by (rewrite ES; reflexivity). apply other_tracked; auto; try congruence.
      intros t' Eq. injection Eq as -> ->. apply (NO t'). left. reflexivity. }
    specialize (IH s1 m last T1 ST' NO' F INC k e NK MK D H). rewrite ER in IH. exact IH.
Qed.

Lemma increasing_nth : forall l k t0 t, increasing l -> nth_error l 0 = Some t0 -> nth_error l k = Some t -> t0 + Z.of_nat k <= t.
Proof.
  induction l as [|x l IH]; intros k t0 t I N0 NK. { discriminate. }
  destruct k as [|k]; cbn [nth_error] in *. { injection N0 as ->. injection NK as ->. lia. }
  cbn [increasing] in I. destruct I as (I1 & I2). injection N0 as ->. destruct l as [|y l]; [destruct k; discriminate|].
  specialize (IH k y t I2 eq_refl NK). lia.
Qed.

(* Each of the rounds number grace .. 99 at which the helper takes the message
   sends SIGKILL, provided the host id had expired when killing began, was not
   renewed since, and no other lockspace signals the process. *)
Theorem C42_escalates_partial : forall g s i c evs k e e0,
  0 <= c_grace g -> kw_killing s = 1%nat -> kw_left s = false -> fresh_user s i c -> k_rkill c = false ->
  stays i evs -> no_other i evs -> increasing (map e_now (rounds evs)) ->
  nth_error (rounds evs) 0 = Some e0 ->
  nth_error (rounds evs) k = Some e -> (c_grace g <= Z.of_nat k)%Z -> (k < 100)%nat -> e_helper e i = true ->
  e_success e + 8 * c_io g <= e_now e0 ->
  In KKill (snd (krun g s evs i)).
Proof.
  intros g s i c evs k e e0 G K L (N & U & P & US & C0) RK ST NO INC N0 NK GK LK H EX.
  assert (N0' : nth_error (map e_now (rounds evs)) 0 = Some (e_now e0)) by (rewrite nth_error_map, N0; reflexivity).
  apply (run_tracked g i evs s 0%nat (e_now e0 - 1)) with (k := k) (e := e); auto.
  - split; [exact K|]. split; [exact L|]. exists c. do 5 (split; [assumption|]). split; [lia|left; exact C0].
  - destruct (map e_now (rounds evs)) as [|t r]; [exact Logic.I|]. injection N0' as ->. lia.
  - assert (IN := increasing_nth (map e_now (rounds evs)) k (e_now e0) (e_now e) INC N0' ltac:(rewrite nth_error_map, NK; reflexivity)).
    unfold calc_id_renewal_fail_seconds. lia.
Qed.
(* The grace period the daemon accepts (at most 60, main.c:2473) leaves 40 rounds. *)
Corollary C42_default_grace : forall g s i c evs k e e0,
  c_grace g = DEFAULT_GRACE_SEC -> kw_killing s = 1%nat -> kw_left s = false -> fresh_user s i c -> k_rkill c = false ->
  stays i evs -> no_other i evs -> increasing (map e_now (rounds evs)) ->
  nth_error (rounds evs) 0 = Some e0 ->
  nth_error (rounds evs) k = Some e -> (40 <= k < 100)%nat -> e_helper e i = true ->
  e_success e + 8 * c_io g <= e_now e0 ->
  In KKill (snd (krun g s evs i)).
Proof. intros g s i c evs k e e0 G **. unfold DEFAULT_GRACE_SEC in G. eapply C42_escalates_partial; eauto; lia. Qed.

(* The daemon does not leave the lockspace while the process stays. *)
Theorem C42_not_left : forall g b s i c e, nth_error (kw_cls s) i = Some c -> k_used c = true -> 0 < k_pid c -> k_using c = true ->
  kw_left s = false -> kw_left (fst (kstep g s (KRound e b))) = false.
Proof.
  intros g b s i c e N U P US L. cbn [kstep]. rewrite L. unfold all_pids_dead.
  assert (X : existsb k_stuck (kw_cls s) = true \/ existsb k_check (kw_cls s) = true).
  { destruct (Nat.leb kill_count_max (k_count c)) eqn:E.
    - left. apply existsb_exists. exists c. split; [eapply nth_error_In; exact N|]. unfold k_stuck, k_live. rewrite U, US, E. assert (0 <? k_pid c = true) as -> by lia. reflexivity.
    - right. apply Nat.leb_gt in E. exact (live_check _ _ _ N U P US E). }
  destruct X as [-> | ->]; cbn [negb andb]; rewrite ?andb_false_r; cbn [andb]; reflexivity.
Qed.

(* ---------------- the full statement fails ---------------- *)
(* both restrictions: SIGKILL is replaced by SIGTERM, which is replaced by SIGKILL *)
Definition cl0 (rk rt : bool) : kcl := mkKcl true 500 0 0 false rk rt false true.
Definition cfg0 : kcfg := mkKcfg 10 40.
Definition env0 (t success : Z) : kenv := mkKenv t success false 0 (fun _ => true).
Theorem C42_both_restrictions_kill : ~ C42_restricts.
Proof.
  intros H. apply (H cfg0 (mkKsys [cl0 true true] 1 false) 0%nat (cl0 true true) [KRound (env0 200 0) false] eq_refl eq_refl).
  vm_compute. left. reflexivity.
Qed.

(* a corrupt host id lease starts the killing right after a renewal: 100 SIGTERM
   are spent within the 120 seconds of grace and SIGKILL is never sent *)
Fixpoint term_rounds (n : nat) (t : Z) : list kev :=
  match n with O => [] | S m => KRound (env0 t t) false :: term_rounds m (t + 1) end.
Lemma term_rounds_spec : forall n t, rounds (term_rounds n t) = map (fun k => env0 (t + Z.of_nat k) (t + Z.of_nat k)) (seq 0 n).
Proof.
  induction n as [|n IH]; intros t; [reflexivity|]. cbn [term_rounds rounds seq map]. rewrite Z.add_0_r. f_equal.
  rewrite IH, <- seq_shift, map_map. apply map_ext. intros k. replace (t + 1 + Z.of_nat k) with (t + Z.of_nat (S k)) by lia. reflexivity.
Qed.
Lemma term_rounds_inc : forall n t, increasing (map e_now (rounds (term_rounds n t))).
Proof.
  induction n as [|n IH]; intros t; [exact Logic.I|]. cbn [term_rounds rounds map increasing]. split; [|apply IH].
  destruct n; cbn; [exact Logic.I|lia].
Qed.
(* in grace the process only gets SIGTERM *)
Lemma term_only : forall n t c k, k_used c = true -> 0 < k_pid c -> k_killpath c = false -> k_rterm c = false -> k_rkill c = false ->
  ~ In KKill (snd (krun cfg0 (mkKsys [c] k false) (term_rounds n t) 0)).
Proof.
  induction n as [|n IH]; intros t c k U P KP RT RK; cbn [term_rounds krun]. { cbn. tauto. }
  cbn [kstep kw_left kw_killing kw_cls]. destruct (all_pids_dead false k [c]) as [k' d] eqn:EA. destruct d.
  { assert (Z : forall n t, ~ In KKill (snd (krun cfg0 (mkKsys [c] k' true) (term_rounds n t) 0))).
    { clear. induction n as [|n IH]; intros t; cbn [term_rounds krun]; [cbn; tauto|]. cbn [kstep kw_left].
      specialize (IH (t + 1)). destruct (krun cfg0 _ (term_rounds n (t + 1)) 0). cbn. exact IH. }
    specialize (Z n (t + 1)). destruct (krun cfg0 _ (term_rounds n (t + 1)) 0). cbn. exact Z. }
  unfold kill_pids. destruct (Nat.ltb 1 k').
  { cbn [map fst snd]. specialize (IH (t + 1) c k' U P KP RT RK). destruct (krun cfg0 _ (term_rounds n (t + 1)) 0). cbn. exact IH. }
  cbn [kill_all map fst snd]. 
  assert (KO : snd (kill_one cfg0 (env0 t t) true c) <> Some KKill).
  { unfold kill_one. destruct (negb (k_used c)); [discriminate|]. destruct (k_pid c <=? 0); [discriminate|].
    destruct (Nat.leb _ _); [discriminate|]. destruct (negb (Nat.eqb (k_count c) 0) && _); [discriminate|].
    destruct (negb (k_using c)); [discriminate|]. unfold choose_sig, calc_id_renewal_fail_seconds.
    cbn [env0 cfg0 c_io c_grace e_now e_success e_remove e_shutdown k_killpath k_rkill k_rterm].
    assert (t <? t + 8 * 10 + 40 = true) as -> by lia. rewrite KP, RT. cbn. discriminate. }
  pose proof (kill_one_spec cfg0 (env0 t t) true c) as KS. cbn [env0 e_helper] in *.
  destruct (kill_one cfg0 _ true c) as [c' o'] eqn:KE. destruct KS as (U' & P' & _ & RK' & RT' & KP' & _ & _). cbn [fst snd] in *.
  specialize (IH (t + 1) c' k' ltac:(congruence) ltac:(lia) ltac:(congruence) ltac:(congruence) ltac:(congruence)).
  destruct (krun cfg0 _ (term_rounds n (t + 1)) 0) as [s2 sg]. cbn [snd] in *. rewrite in_app_iff. intros [I|I]; [|exact (IH I)].
  unfold sent_to in I. cbn [nth_error] in I. destruct o' as [x|]; cbn in I; [|tauto]. destruct I as [->|[]]. exact (KO eq_refl).
Qed.
Theorem C42_grace_extended : ~ C42_escalates.
Proof.
  intros H. destruct (H cfg0 (mkKsys [cl0 false false] 1 false) 0%nat (cl0 false false)) as (n & Hn).
  1-4: cbn; lia || reflexivity. 1: repeat split; cbn; auto; lia. 1: reflexivity.
  apply (term_only n 1 (cl0 false false) 1%nat); try reflexivity; try (cbn; lia).
  apply (Hn (term_rounds n 1)).
  - clear. intros ev. revert ev. generalize 1. induction n as [|n IH]; intros t ev I; [destruct I|].
    destruct I as [<-|I]; [split; discriminate|exact (IH _ _ I)].
  - apply term_rounds_inc.
  - intros e. rewrite term_rounds_spec, in_map_iff. intros (k & <- & _). reflexivity.
  - rewrite term_rounds_spec, map_length, seq_length. lia.
Qed.
(* and with one renewal only: 150 rounds after a renewal at the start, time passing,
   the last 30 of them after the grace period, send no SIGKILL *)
Fixpoint rounds_after (n : nat) (t : Z) : list kev :=
  match n with O => [] | S m => KRound (env0 t 1) false :: rounds_after m (t + 1) end.
Theorem C42_corrupt_lease_no_kill :
  let r := krun cfg0 (mkKsys [cl0 false false] 1 false) (rounds_after 150 1) 0 in
  snd r = repeat KTerm 100 /\ kw_killing (fst r) = 2%nat /\ kw_left (fst r) = false.
Proof. vm_compute. auto. Qed.
Theorem C42_refuted : ~ C42_statement.
Proof. intros (H & _). exact (C42_grace_extended H). Qed.

(* ---------------- hypotheses can be met ---------------- *)
(* expired at 80, killing starts then; 40 rounds later SIGKILL *)
Fixpoint expired_rounds (n : nat) (t : Z) : list kev :=
  match n with O => [] | S m => KRound (env0 t 0) false :: expired_rounds m (t + 1) end.
Example C42_nonvacuous :
  let evs := expired_rounds 45 80 in
  fresh_user (mkKsys [cl0 false false] 1 false) 0 (cl0 false false) /\
  nth_error (rounds evs) 0 = Some (env0 80 0) /\ nth_error (rounds evs) 42 = Some (env0 122 0) /\
  snd (krun cfg0 (mkKsys [cl0 false false] 1 false) evs 0) = repeat KTerm 40 ++ repeat KKill 5.
Proof. cbn zeta. split; [repeat split; cbn; auto; lia|]. split; [reflexivity|]. split; [reflexivity|]. vm_compute. reflexivity. Qed.

Print Assumptions C42_restricts_partial.
Print Assumptions C42_escalates_partial.
Print Assumptions C42_default_grace.
Print Assumptions C42_not_left.
Print Assumptions C42_both_restrictions_kill.
Print Assumptions C42_grace_extended.
Print Assumptions C42_corrupt_lease_no_kill.
Print Assumptions C42_refuted.
