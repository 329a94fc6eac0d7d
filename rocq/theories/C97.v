(* C97: a command is executed only on a connection that may, a lease command only for a
   process that is registered and alive, one at a time per process and per connection; what is
   refused changes nothing and is answered.

   The specification names connections by their slot and speaks of the fields of a slot and
   of the list of commands being worked on. *)
From Coq Require Import List ZArith NArith Lia Bool.
From Verif Require Import Dispatch DispatchProof.
Import ListNotations.

Definition same_slots (s s' : state) : Prop := size s' = size s /\ jobs s' = jobs s /\ forall i, slots s' i = slots s i.

(* ---- the gate ---- *)
Definition known (c : N) : Prop := (1 <= c <= 40)%N.
Definition admitted (s : state) (ci : nat) (h : hdr) : Prop :=
  h_magic h = SM_MAGIC /\ N.testbit (restr (slots s ci)) 0 = false /\
  (h_version h = 0 \/ h_cmd h = VERSION \/ h_version h / 65536 <= SM_PROTO / 65536)%N /\ known (h_cmd h).

Lemma mem_known : forall c, known c <-> mem c daemon_cmds || (mem c unreg_cmds || mem c lease_cmds) = true.
Proof.
  intros c. unfold known. split.
  - intros H. assert (Hc : exists n, c = N.of_nat n /\ n <= 40 /\ 1 <= n) by (exists (N.to_nat c); lia).
    destruct Hc as (n & -> & Hn & H1). do 41 (destruct n as [|n]; [try lia; reflexivity|]). lia.
  - intros H. unfold mem in H. rewrite <- !existsb_app in H. apply existsb_exists in H as (x & Hx & He). apply N.eqb_eq in He. subst x.
    cbn in Hx. repeat (destruct Hx as [<- | Hx]; [unfold ACQUIRE, RELEASE, INQUIRE, CONVERT, KILLPATH; lia|]). destruct Hx.
Qed.

Theorem C97_gate : forall s ci h o, ~ admitted s ci h -> header s ci h o = (s, None).
Proof.
  intros s ci h o H. unfold header. destruct (N.eqb_spec (h_magic h) SM_MAGIC) as [Hm | Hm]; [|reflexivity]. cbn [negb].
  destruct (N.testbit (restr (slots s ci)) 0) eqn:Er; [reflexivity|].
  destruct (negb (h_version h =? 0)%N && negb (h_cmd h =? VERSION)%N && (N.shiftr SM_PROTO 16 <? N.shiftr (h_version h) 16)%N) eqn:Ev; [reflexivity|].
  destruct (mem (h_cmd h) daemon_cmds || (mem (h_cmd h) unreg_cmds || mem (h_cmd h) lease_cmds)) eqn:Ek.
  - exfalso. apply H. split; [exact Hm|]. split; [exact Er|]. split; [|apply mem_known; exact Ek].
    rewrite !N.shiftr_div_pow2 in Ev. change (2 ^ 16)%N with 65536%N in Ev.
    apply andb_false_iff in Ev as [Ev | Ev]; [apply andb_false_iff in Ev as [Ev | Ev]; apply negb_false_iff, N.eqb_eq in Ev; auto|].
    right. right. apply N.ltb_ge. exact Ev.
  - apply orb_false_iff in Ek as [E1 E2]. rewrite E1, E2. reflexivity.
Qed.
Print Assumptions C97_gate.

(* every command that is handed to a worker is known to the worker *)
Theorem C97_handled : forall c, mem c unreg_cmds || mem c lease_cmds = true -> In c thread_cases.
Proof.
  intros c H. unfold mem in H. rewrite <- existsb_app in H. apply existsb_exists in H as (x & Hx & He). apply N.eqb_eq in He. subst x.
  cbn in Hx. repeat (destruct Hx as [<- | Hx]; [vm_compute; tauto|]). destruct Hx.
Qed.
Print Assumptions C97_handled.

(* ---- for whom a lease command is executed ---- *)
Lemma find_target_spec : forall s d t, find_target s d = Some t -> t < size s /\ u32 (pid (slots s t)) = d.
Proof.
  intros s d t H. apply find_some in H as [H1 H2]. apply in_seq in H1. apply N.eqb_eq in H2. split; auto. lia.
Qed.

Definition alive (c : slot) : Prop := used c = true /\ (0 < pid c)%Z /\ dead c = false /\ nfree c = false.
(* the process meant: the one at the other end, or the one with the pid given *)
Definition meant (s : state) (ci : nat) (d2 : N) (t : nat) : Prop :=
  if N.eqb d2 0xFFFFFFFF then t = ci else u32 (pid (slots s t)) = d2.

Theorem C97_lease_cmd : forall s ci h o s' rep, In (h_cmd h) lease_cmds -> header s ci h o = (s', rep) -> jobs s' <> jobs s ->
  exists t, jobs s' = jobs s ++ [mkJob (h_cmd h) ci (Some t)] /\ rep = None /\
    meant s ci (h_data2 h) t /\ alive (slots s t) /\ active (slots s t) = 0%N /\
    (h_cmd h = ACQUIRE -> kills (slots s t) = 0) /\ susp (slots s ci) = false /\ admitted s ci h /\
    active (slots s' t) = h_cmd h /\ susp (slots s' ci) = true.
Proof.
  intros s ci h o s' rep Hin Hh Hj.
  assert (Had : admitted s ci h \/ ~ admitted s ci h).
  { unfold admitted. destruct (N.eq_dec (h_magic h) SM_MAGIC); [|right; tauto].
    destruct (N.testbit (restr (slots s ci)) 0); [right; intros (_ & B & _); discriminate|].
    assert (V : (h_version h = 0 \/ h_cmd h = VERSION \/ h_version h / 65536 <= SM_PROTO / 65536)%N \/
                ~ (h_version h = 0 \/ h_cmd h = VERSION \/ h_version h / 65536 <= SM_PROTO / 65536)%N).
    { destruct (N.eq_dec (h_version h) 0); [auto|]. destruct (N.eq_dec (h_cmd h) VERSION); [auto|].
      destruct (N.le_gt_cases (h_version h / 65536) (SM_PROTO / 65536)); [auto|]. right. intros [A | [A | A]]; auto. lia. }
    assert (K : known (h_cmd h)).
    { unfold known. cbn in Hin. unfold ACQUIRE, RELEASE, INQUIRE, CONVERT, KILLPATH in Hin. lia. }
    destruct V as [V | V]; [left; auto|right; intros (_ & _ & C & _); auto]. }
  destruct Had as [Had | Had]; [|rewrite C97_gate in Hh by exact Had; injection Hh as <- <-; contradiction].
  unfold header in Hh.
  destruct (negb (h_magic h =? SM_MAGIC)%N); [injection Hh as <- <-; contradiction|].
  destruct (N.testbit _ 0); [injection Hh as <- <-; contradiction|].
  destruct (_ && _ && _); [injection Hh as <- <-; contradiction|].
  assert (Hm : mem (h_cmd h) daemon_cmds = false /\ mem (h_cmd h) unreg_cmds = false /\ mem (h_cmd h) lease_cmds = true).
  { cbn in Hin. repeat (destruct Hin as [<- | Hin]; [vm_compute; auto|]). destruct Hin. }
  destruct Hm as (M1 & M2 & M3). rewrite M1, M2, M3 in Hh. cbn [orb] in Hh.
  destruct (susp (slots s ci)) eqn:Es; [injection Hh as <- <-; contradiction|].
  set (s1 := upd s ci (set_susp (slots s ci) true)) in *.
  unfold lease_cmd in Hh.
  assert (R : forall e, (resume s1 ci, Some (- e)%Z) = (s', rep) -> False).
  { intros e E. injection E as <- <-. apply Hj. reflexivity. }
  destruct (negb (mem_ok o)); [exfalso; eapply R; exact Hh|].
  set (tg := if (h_data2 h =? 4294967295)%N then Some ci else find_target s1 (h_data2 h)) in Hh.
  destruct tg as [t|] eqn:Et; [|exfalso; eapply R; exact Hh].
  assert (Hmeant : meant s ci (h_data2 h) t).
  { unfold meant. unfold tg in Et. destruct (h_data2 h =? 4294967295)%N; [congruence|].
    apply find_target_spec in Et as [_ Et]. unfold s1 in Et. rewrite (susp_field pid) in Et by reflexivity. exact Et. }
  assert (F : forall {A} (f : slot -> A), (forall c b, f (set_susp c b) = f c) -> f (slots s1 t) = f (slots s t)).
  { intros A f Hf. apply susp_field. exact Hf. }
  cbv zeta in Hh. rewrite (F _ used), (F _ pid), (F _ dead), (F _ nfree), (F _ kills), (F _ active) in Hh by reflexivity.
  destruct (used (slots s t)) eqn:Eu; cbn [negb] in Hh; [|exfalso; eapply R; exact Hh].
  destruct (pid (slots s t) <=? 0)%Z eqn:Ep; [exfalso; eapply R; exact Hh|].
  destruct (dead (slots s t)) eqn:Ed; [exfalso; eapply R; exact Hh|].
  destruct (nfree (slots s t)) eqn:En; [exfalso; eapply R; exact Hh|].
  destruct (negb (Nat.eqb (kills (slots s t)) 0) && (h_cmd h =? ACQUIRE)%N) eqn:Ek; [exfalso; eapply R; exact Hh|].
  destruct (N.eqb_spec (active (slots s t)) 0) as [Ea | Ea]; cbn [negb] in Hh; [|exfalso; eapply R; exact Hh].
  destruct (negb (pool_ok o)); [exfalso; eapply R; exact Hh|].
  injection Hh as <- <-. exists t. cbn [jobs add_job upd slots]. rewrite Nat.eqb_refl.
  split; [reflexivity|]. split; [reflexivity|]. split; [exact Hmeant|]. split; [repeat split; auto; apply Z.leb_gt; exact Ep|].
  split; [exact Ea|]. split.
  { intros Hc. rewrite Hc, N.eqb_refl, andb_true_r in Ek. apply negb_false_iff, Nat.eqb_eq in Ek. exact Ek. }
  split; [reflexivity|]. split; [exact Had|]. split; [reflexivity|].
  destruct (Nat.eqb_spec ci t) as [e | e]; [subst t|]; cbn; rewrite Nat.eqb_refl; reflexivity.
Qed.
Print Assumptions C97_lease_cmd.

(* ---- what is refused ---- *)
(* the client has not sent more than the command it waits for: nothing is read from a
   connection whose process was seen to be gone *)
Definition polite (s : state) (x : op) : bool := match x with OHeader ci _ _ => negb (dead (slots s ci)) | _ => true end.
Fixpoint polite_run (s : state) (l : list op) : bool :=
  match l with [] => true | x :: l => polite s x && polite_run (step s x) l end.


Lemma inv_run : forall l s, polite_run s l = true -> inv s -> inv (run s l).
Proof.
  induction l as [|x l IH]; intros s Hp I; [exact I|]. cbn in Hp. apply andb_true_iff in Hp as [Hx Hl].
  apply IH; auto. apply inv_step; auto. intros ci h o ->. cbn in Hx. apply negb_true_iff. exact Hx.
Qed.
Lemma inv_init : forall n, inv (init n).
Proof. intros n. split; [intros i; apply empty_ok|]. split; [|split; [|split]]; cbn; try tauto; constructor. Qed.

Lemma same_refused : forall s ci, slot_ok (slots s ci) -> susp (slots s ci) = false -> used (slots s ci) = true ->
  same_slots s (resume (upd s ci (set_susp (slots s ci) true)) ci).
Proof.
  intros s ci Q Hs Hu. pose proof (nfree_susp _ Q Hs) as Hn. split; [reflexivity|]. split; [reflexivity|]. intros i. cbn.
  destruct (Nat.eqb_spec i ci) as [-> | e]; auto. rewrite Nat.eqb_refl. unfold resume_slot. cbn. rewrite Hu, Hn. cbn.
  destruct (slots s ci). cbn in *. subst. reflexivity.
Qed.
(* an answer from the main thread is a refusal and nothing has changed *)
Theorem C97_refused : forall n l ci h o s' r, polite_run (init n) l = true ->
  used (slots (run (init n) l) ci) = true -> susp (slots (run (init n) l) ci) = false ->
  header (run (init n) l) ci h o = (s', Some r) -> (r < 0)%Z /\ same_slots (run (init n) l) s'.
Proof.
  intros n l ci h o s' r Hp Hu Hs Hh. pose proof (inv_run l (init n) Hp (inv_init n)) as I. set (s := run (init n) l) in *. clearbody s.
  assert (Q : slot_ok (slots s ci)) by apply I. pose proof (same_refused s ci Q Hs Hu) as S.
  assert (R : forall e, (0 < e)%Z -> refuse (upd s ci (set_susp (slots s ci) true)) ci e = (s', Some r) -> (r < 0)%Z /\ same_slots s s').
  { intros e He E. unfold refuse in E. injection E as <- <-. split; [lia|exact S]. }
  unfold header in Hh. destruct (negb _); [discriminate|]. destruct (N.testbit _ 0); [discriminate|]. destruct (_ && _ && _); [discriminate|].
  destruct (mem (h_cmd h) daemon_cmds); [discriminate|]. destruct (_ || _); [|discriminate]. rewrite Hs in Hh.
  destruct (mem (h_cmd h) unreg_cmds).
  - unfold unreg_cmd in Hh. destruct (negb (mem_ok o)); [eapply R; [|exact Hh]; reflexivity|].
    destruct (negb (pool_ok o)); [eapply R; [|exact Hh]; reflexivity|]. discriminate.
  - unfold lease_cmd in Hh. destruct (negb (mem_ok o)); [eapply R; [|exact Hh]; reflexivity|].
    destruct (if (h_data2 h =? 4294967295)%N then _ else _) as [t|]; [|eapply R; [|exact Hh]; reflexivity]. cbv zeta in Hh.
    repeat match type of Hh with (if ?b then refuse _ _ _ else _) = _ => destruct b; [eapply R; [|exact Hh]; reflexivity|] end. discriminate.
Qed.
Print Assumptions C97_refused.
(* a worker's command that is not taken is answered *)
Theorem C97_answered : forall s ci h o s' rep, admitted s ci h -> mem (h_cmd h) daemon_cmds = false ->
  susp (slots s ci) = false -> header s ci h o = (s', rep) ->
  (exists r, rep = Some r) \/ (exists t, jobs s' = jobs s ++ [mkJob (h_cmd h) ci t]).
Proof.
  intros s ci h o s' rep (Hm & Hr & Hv & Hk) Hd Hs Hh. unfold header in Hh. rewrite Hm, N.eqb_refl, Hr in Hh. cbn [negb] in Hh.
  destruct (negb (h_version h =? 0)%N && negb (h_cmd h =? VERSION)%N && (N.shiftr SM_PROTO 16 <? N.shiftr (h_version h) 16)%N) eqn:Ev.
  { exfalso. rewrite !N.shiftr_div_pow2 in Ev. change (2 ^ 16)%N with 65536%N in Ev. apply andb_true_iff in Ev as [E E3].
    apply andb_true_iff in E as [E1 E2]. apply negb_true_iff, N.eqb_neq in E1. apply negb_true_iff, N.eqb_neq in E2. apply N.ltb_lt in E3.
    destruct Hv as [V | [V | V]]; auto. lia. }
  apply mem_known in Hk. rewrite Hd in Hh, Hk. cbn [orb] in Hk. rewrite Hk, Hs in Hh.
  destruct (mem (h_cmd h) unreg_cmds).
  - unfold unreg_cmd, refuse in Hh. destruct (negb (mem_ok o)); [injection Hh as <- <-; eauto|].
    destruct (negb (pool_ok o)); [injection Hh as <- <-; eauto|]. injection Hh as <- <-. right. exists None. reflexivity.
  - unfold lease_cmd in Hh. destruct (negb (mem_ok o)); [injection Hh as <- <-; eauto|].
    destruct (if (h_data2 h =? 4294967295)%N then _ else _) as [t|]; [|injection Hh as <- <-; eauto]. cbv zeta in Hh.
    repeat match type of Hh with (if ?b then refuse _ _ _ else _) = _ => destruct b; [injection Hh as <- <-; eauto|] end.
    injection Hh as <- <-. right. exists (Some t). reflexivity.
Qed.
Print Assumptions C97_answered.

(* ---- one at a time ---- *)
Definition one_at_a_time (s : state) : Prop :=
  (forall a b ja jb, nth_error (jobs s) a = Some ja -> nth_error (jobs s) b = Some jb -> j_in ja = j_in jb -> a = b) /\
  (forall a b ja jb t, nth_error (jobs s) a = Some ja -> nth_error (jobs s) b = Some jb -> j_tgt ja = Some t -> j_tgt jb = Some t -> a = b) /\
  (forall j t, In j (jobs s) -> j_tgt j = Some t -> used (slots s t) = true) /\
  (forall j, In j (jobs s) -> used (slots s (j_in j)) = true).

Lemma targets_nth : forall l a b ja jb t, NoDup (targets l) -> nth_error l a = Some ja -> nth_error l b = Some jb ->
  j_tgt ja = Some t -> j_tgt jb = Some t -> a = b.
Proof.
  induction l as [|x l IH]; intros a b ja jb t H Ha Hb Ta Tb; [destruct a; discriminate|].
  assert (T : forall j, j_tgt x = Some t -> In j l -> j_tgt j = Some t -> False).
  { intros j Hx Hj Ht. cbn in H. rewrite Hx in H. cbn in H. inversion H; subst. apply H2. apply in_targets. exists j. auto. }
  assert (N : NoDup (targets l)) by (cbn in H; destruct (j_tgt x); [inversion H; auto|auto]).
  destruct a as [|a]; destruct b as [|b]; auto.
  - injection Ha as ->. exfalso. exact (T jb Ta (nth_error_In l b Hb) Tb).
  - injection Hb as ->. exfalso. exact (T ja Tb (nth_error_In l a Ha) Ta).
  - f_equal. eapply IH; eauto.
Qed.
Theorem C97_one_at_a_time_partial : forall n l, polite_run (init n) l = true -> one_at_a_time (run (init n) l).
Proof.
  intros n l Hp. pose proof (inv_run l (init n) Hp (inv_init n)) as (A & B & C & D & E). set (s := run (init n) l) in *. clearbody s.
  split; [|split; [|split]].
  - intros a b ja jb Ha Hb He. apply (proj1 (NoDup_nth_error (map j_in (jobs s))) C).
    + rewrite map_length. apply nth_error_Some. congruence.
    + rewrite !nth_error_map, Ha, Hb. cbn. congruence.
  - intros a b ja jb t. apply targets_nth. exact E.
  - intros j t Hj Ht. destruct (D j t Hj Ht) as [D1 D2]. destruct (A t) as (Q1 & _). destruct (used (slots s t)); auto.
    rewrite (Q1 eq_refl) in D1. cbn in D1. congruence.
  - intros j Hj. pose proof (B j Hj) as S. destruct (A (j_in j)) as (Q1 & _). destruct (used (slots s (j_in j))); auto.
    rewrite (Q1 eq_refl) in S. discriminate.
Qed.
Print Assumptions C97_one_at_a_time_partial.

(* ---- a new connection inherits nothing ---- *)
Definition fresh (s : state) : Prop := forall i, used (slots s i) = false -> slots s i = empty_slot.
Lemma fresh_upd : forall s i c, fresh s -> (used c = false -> c = empty_slot) -> fresh (upd s i c).
Proof. intros s i c H Hc k. cbn. destruct (Nat.eqb k i); auto. Qed.
Lemma fresh_free : forall s i, fresh s -> fresh (free s i).
Proof.
  intros s i H. apply fresh_upd; auto. unfold free_slot. destruct (used (slots s i)) eqn:U; cbn; auto.
  destruct (negb _); [congruence|]. destruct (susp _); [cbn; congruence|auto].
Qed.
Lemma fresh_resume : forall s i, fresh s -> fresh (resume s i).
Proof.
  intros s i H. apply fresh_upd; auto. unfold resume_slot. destruct (used (slots s i)) eqn:U; cbn; auto.
  destruct (susp _); cbn; [|congruence]. destruct (nfree _); [|cbn; congruence]. unfold free_slot. cbn. rewrite U. cbn.
  destruct (negb _); [cbn; congruence|auto].
Qed.
Lemma fresh_refuse : forall s ci e, fresh s -> fresh (fst (refuse s ci e)).
Proof. intros. apply fresh_resume. auto. Qed.
Lemma fresh_step : forall s x, fresh s -> fresh (step s x).
Proof.
  intros s x H. destruct x; cbn [step].
  - destruct (find _ _); [apply fresh_upd; cbn; [auto|discriminate]|auto].
  - destruct (used (slots s ci)) eqn:U; cbn [andb]; auto. destruct (negb (susp _)) eqn:Es; auto. apply negb_true_iff in Es. unfold header.
    destruct (negb _); [auto|]. destruct (N.testbit _ 0); [auto|]. destruct (_ && _ && _); [auto|]. destruct (mem (h_cmd h) daemon_cmds).
    { cbn [fst]. unfold daemon_cmd. destruct (_ =? REGISTER)%N.
      - destruct (peer o); [|apply fresh_free; auto]. destruct (tok_ok o); [|apply fresh_free]; apply fresh_upd; auto; cbn; congruence.
      - destruct (_ =? RESTRICT)%N; [apply fresh_upd; auto; cbn; congruence|]. destruct (_ =? VERSION)%N; [auto|apply fresh_free; auto]. }
    destruct (_ || _); [|auto]. rewrite Es.
    assert (F1 : fresh (upd s ci (set_susp (slots s ci) true))) by (apply fresh_upd; auto; cbn; congruence).
    destruct (mem (h_cmd h) unreg_cmds).
    + unfold unreg_cmd. destruct (negb _); [apply fresh_refuse; auto|]. destruct (negb _); [apply fresh_refuse; auto|]. exact F1.
    + unfold lease_cmd. destruct (negb _); [apply fresh_refuse; auto|]. destruct (if (_ =? 4294967295)%N then _ else _) as [t|]; [|apply fresh_refuse; auto].
      cbv zeta. set (s1 := upd s ci _) in *. clearbody s1. destruct (used (slots s1 t)) eqn:Ut; cbn [negb]; [|apply fresh_refuse; auto].
      repeat match goal with |- fresh (fst (if ?b then refuse _ _ _ else _)) => destruct b; [apply fresh_refuse; auto|] end.
      apply (fresh_upd s1 t (set_active (slots s1 t) (h_cmd h)) F1). cbn. congruence.
  - unfold gone. destruct (used (slots s ci)) eqn:U; cbn [negb]; auto. destruct (negb (regd _)); [apply fresh_free; auto|]. destruct (Z.eqb _ _); auto.
    destruct (N.eqb _ _); [apply fresh_free|]; apply fresh_upd; auto; cbn; congruence.
  - cbv zeta. destruct (0 <? _)%Z eqn:Ez; auto. apply fresh_upd; auto. cbn. intros U. rewrite (H _ U) in Ez. discriminate.
  - unfold done. destruct (nth_error _ _) as [j|]; auto.
    assert (F0 : fresh (mkD (size s) (slots s) (del k (jobs s)))) by exact H. set (s0 := mkD _ _ _) in *. clearbody s0.
    assert (F1 : fresh match j_tgt j with Some t => if clear then let s1 := upd s0 t (set_active (slots s0 t) 0) in if dead (slots s1 t) then free s1 t else s1 else s0 | None => s0 end).
    { destruct (j_tgt j) as [t|]; auto. destruct clear; auto. cbv zeta.
      assert (F2 : fresh (upd s0 t (set_active (slots s0 t) 0))) by (apply fresh_upd; auto; cbn; intros U; rewrite (F0 _ U); reflexivity).
      destruct (dead _); [apply fresh_free|]; auto. }
    destruct back; [apply fresh_resume|]; exact F1.
Qed.
Theorem C97_fresh : forall n l i, slots (run (init n) l) i <> slots (run (init n) (l ++ [OAccept])) i ->
  used (slots (run (init n) l) i) = false /\
  slots (run (init n) (l ++ [OAccept])) i = mkSlot true (-1) false false false 0 0 false 0.
Proof.
  intros n l i H. assert (F : fresh (run (init n) l)).
  { unfold run. rewrite <- fold_left_rev_right. induction (rev l) as [|x r IH]; [intros k _; reflexivity|]. cbn. apply fresh_step. exact IH. }
  unfold run in *. rewrite fold_left_app in *. cbn [fold_left step] in *. fold (run (init n) l) in *. set (s := run (init n) l) in *. clearbody s.
  destruct (find _ _) as [k|] eqn:Ef; [|congruence]. apply find_some in Ef as [_ Ef]. apply negb_true_iff in Ef. cbn in H |- *.
  destruct (Nat.eqb_spec i k) as [-> | e]; [|congruence]. rewrite (F _ Ef). cbn. auto.
Qed.
Print Assumptions C97_fresh.

(* ---- a connection that gave up its commands stays so until it is closed ---- *)
Definition barred (i : nat) (s : state) : Prop := N.testbit (restr (slots s i)) 0 = true \/ used (slots s i) = false.
Lemma barred_upd : forall i s k c, barred i s -> (restr c = restr (slots s k) /\ used c = used (slots s k)) \/ c = empty_slot -> barred i (upd s k c).
Proof.
  intros i s k c B H. unfold barred. cbn. destruct (Nat.eqb_spec i k) as [-> | e]; [|exact B].
  destruct H as [[-> ->] | ->]; [exact B|right; reflexivity].
Qed.
Lemma barred_free : forall i s k, barred i s -> barred i (free s k).
Proof.
  intros i s k B. apply barred_upd; auto. unfold free_slot. destruct (negb _); auto. destruct (negb _); auto. destruct (susp _); auto.
Qed.
Lemma barred_resume : forall i s k, barred i s -> barred i (resume s k).
Proof.
  intros i s k B. apply barred_upd; auto. unfold resume_slot. destruct (used (slots s k)) eqn:U; cbn [negb]; auto.
  destruct (negb (susp _)); auto. destruct (nfree _); auto.
  unfold free_slot. cbn [used set_susp pid susp]. rewrite U. cbn [negb]. destruct (negb _); auto.
Qed.
Lemma barred_refuse : forall i s k e, barred i s -> barred i (fst (refuse s k e)).
Proof. intros. apply barred_resume. auto. Qed.
Theorem C97_restrict_all : forall s x i, N.testbit (restr (slots s i)) 0 = true ->
  N.testbit (restr (slots (step s x) i)) 0 = true \/ used (slots (step s x) i) = false.
Proof.
  intros s x i H. assert (B : barred i s) by (left; exact H). fold (barred i (step s x)). destruct x; cbn [step].
  - destruct (find _ _) as [k|]; auto. cbv zeta. left. cbn. destruct (Nat.eqb_spec i k) as [-> | e]; auto.
  - destruct (_ && _); [|auto]. unfold header. destruct (negb _); [auto|]. destruct (N.testbit (restr (slots s ci)) 0) eqn:Er; [auto|].
    assert (Hne : i <> ci) by congruence.
    destruct (_ && _ && _); [auto|]. destruct (mem (h_cmd h) daemon_cmds).
    { cbn [fst]. unfold daemon_cmd. destruct (_ =? REGISTER)%N.
      - destruct (peer o); [|apply barred_free; auto]. destruct (tok_ok o); [|apply barred_free]; apply barred_upd; auto.
      - destruct (_ =? RESTRICT)%N; [left; rewrite upd_other by exact Hne; exact H|]. destruct (_ =? VERSION)%N; [auto|apply barred_free; auto]. }
    destruct (_ || _); [|auto]. destruct (susp _); [auto|].
    assert (B1 : barred i (upd s ci (set_susp (slots s ci) true))) by (apply barred_upd; auto).
    destruct (mem (h_cmd h) unreg_cmds).
    + unfold unreg_cmd. destruct (negb _); [apply barred_refuse; auto|]. destruct (negb _); [apply barred_refuse; auto|]. exact B1.
    + unfold lease_cmd. destruct (negb _); [apply barred_refuse; auto|]. destruct (if (_ =? 4294967295)%N then _ else _) as [t|]; [|apply barred_refuse; auto].
      cbv zeta. set (s1 := upd s ci _) in *. clearbody s1.
      repeat match goal with |- barred i (fst (if ?b then refuse _ _ _ else _)) => destruct b; [apply barred_refuse; auto|] end.
      apply (barred_upd i s1 t (set_active (slots s1 t) (h_cmd h)) B1). auto.
  - unfold gone. destruct (negb _); auto. destruct (negb _); [apply barred_free; auto|]. destruct (Z.eqb _ _); auto.
    destruct (N.eqb _ _); [apply barred_free|]; apply barred_upd; auto.
  - cbv zeta. destruct (0 <? _)%Z; auto. apply barred_upd; auto.
  - unfold done. destruct (nth_error _ _) as [j|]; auto.
    assert (F0 : barred i (mkD (size s) (slots s) (del k (jobs s)))) by exact B. set (s0 := mkD _ _ _) in *. clearbody s0.
    assert (F1 : barred i match j_tgt j with Some t => if clear then let s1 := upd s0 t (set_active (slots s0 t) 0) in if dead (slots s1 t) then free s1 t else s1 else s0 | None => s0 end).
    { destruct (j_tgt j) as [t|]; auto. destruct clear; auto. cbv zeta.
      assert (F2 : barred i (upd s0 t (set_active (slots s0 t) 0))) by (apply barred_upd; auto).
      destruct (dead _); [apply barred_free|]; auto. }
    destruct back; [apply barred_resume|]; exact F1.
Qed.
Print Assumptions C97_restrict_all.

(* ---- counterexamples ---- *)
Definition ok (p : N) := mkO true true (Some p) true.
Definition msg (c d2 : N) := mkH SM_MAGIC SM_PROTO c 0 d2.
Definition own : N := 0xFFFFFFFF.
(* Two connections, slot 0 registered as process 100.  Slot 1 asks for a release of all
   leases of process 100 (data2 = 100); process 100 sends a request of its own that any
   connection may send, a status request behind it without waiting for the answer, and ends.
   The end is noticed but the slot is kept for the release; when the first answer is sent the
   status request is read and its end frees the slot the release works on. *)
Definition pipelined : list op :=
  [OAccept; OHeader 0 (msg REGISTER own) (ok 100); OAccept; OHeader 1 (msg RELEASE 100) (ok 0); OHeader 0 (msg 11 own) (ok 0);
   ODead 0; ODone 1 true true; OHeader 0 (msg 5 own) (ok 0)].
Theorem C97_pipelined_refuted : let s := run (init 8) pipelined in
  (exists j, In j (jobs s) /\ j_cmd j = RELEASE /\ j_tgt j = Some 0) /\ used (slots s 0) = false /\
  (* and the next process to connect gets the slot; the end of the release clears a field of it *)
  let s2 := run s [OAccept; OHeader 0 (msg REGISTER own) (ok 200); OHeader 0 (msg ACQUIRE own) (ok 0); ODone 0 true true; OAccept; OHeader 2 (msg ACQUIRE 200) (ok 0)] in
  length (filter (fun j => match j_tgt j with Some 0 => N.eqb (j_cmd j) ACQUIRE | _ => false end) (jobs s2)) = 2.
Proof. vm_compute. split; [|split]; auto. eexists. split; [left; reflexivity|]. split; reflexivity. Qed.
Print Assumptions C97_pipelined_refuted.

(* A command that does not pass the gate is not answered and its connection is not closed:
   the client waits for an answer for ever. *)
Theorem C97_no_answer_refuted : exists s ci h o, used (slots s ci) = true /\ susp (slots s ci) = false /\
  ~ admitted s ci h /\ header s ci h o = (s, None) /\ h_magic h = SM_MAGIC /\ known (h_cmd h).
Proof.
  exists (run (init 8) [OAccept]), 0, (mkH SM_MAGIC 65536 ACQUIRE 0 own), (ok 0). split; [reflexivity|]. split; [reflexivity|].
  split; [intros (_ & _ & [H | [H | H]] & _); [discriminate|discriminate|revert H; vm_compute; congruence]|].
  split; [reflexivity|]. split; [reflexivity|vm_compute; split; congruence].
Qed.
Print Assumptions C97_no_answer_refuted.

(* A process with two registered connections: a command that names it by its pid reaches the
   connection in the lower slot, whatever leases the other one holds. *)
Theorem C97_two_connections_refuted :
  let s := run (init 8) [OAccept; OHeader 0 (msg REGISTER own) (ok 100); OAccept; OHeader 1 (msg REGISTER own) (ok 100); OAccept] in
  alive (slots s 0) /\ alive (slots s 1) /\ pid (slots s 0) = 100%Z /\ pid (slots s 1) = 100%Z /\
  jobs (fst (header s 2 (msg RELEASE 100) (ok 0))) = [mkJob RELEASE 2 (Some 0)] /\
  snd (header (fst (header s 2 (msg RELEASE 100) (ok 0))) 0 (msg INQUIRE own) (ok 0)) = Some (-16)%Z /\
  snd (header (fst (header s 2 (msg RELEASE 100) (ok 0))) 1 (msg INQUIRE own) (ok 0)) = None.
Proof. cbv zeta. repeat split; vm_compute; reflexivity. Qed.
Print Assumptions C97_two_connections_refuted.

(* A registration for which there was no memory is not answered, the connection stays open and
   counts as registered: a lease command for it is taken, though it has no table for leases. *)
Theorem C97_register_refuted :
  let s := run (init 8) [OAccept; OHeader 0 (msg REGISTER own) (mkO true true (Some 100%N) false)] in
  used (slots s 0) = true /\ snd (header (run (init 8) [OAccept]) 0 (msg REGISTER own) (mkO true true (Some 100%N) false)) = None /\
  jobs (run s [OHeader 0 (msg ACQUIRE own) (ok 0)]) = [mkJob ACQUIRE 0 (Some 0)].
Proof. cbv zeta. repeat split; vm_compute; reflexivity. Qed.
Print Assumptions C97_register_refuted.

(* ---- a case ---- *)
Definition day : list op :=
  [OAccept; OHeader 0 (msg REGISTER own) (ok 100); OHeader 0 (msg ACQUIRE own) (ok 0); OAccept; OHeader 1 (msg INQUIRE 100) (ok 0);
   ODead 0; OHeader 1 (msg RELEASE 100) (ok 0); ODone 0 true true; OHeader 1 (mkH SM_MAGIC SM_PROTO RESTRICT RESTRICT_ALL own) (ok 0); OHeader 1 (msg 11 own) (ok 0)].
Example C97_nonvacuous :
  polite_run (init 8) day = true /\
  (let s := run (init 8) (firstn 3 day) in jobs s = [mkJob ACQUIRE 0 (Some 0)] /\ active (slots s 0) = ACQUIRE /\ susp (slots s 0) = true) /\
  (let s := run (init 8) (firstn 4 day) in snd (header s 1 (msg INQUIRE 100) (ok 0)) = Some (-16)%Z /\ snd (header s 1 (msg INQUIRE 101) (ok 0)) = Some (-3)%Z /\
     snd (header s 1 (msg 11 own) (mkO false true None true)) = Some (-12)%Z) /\
  (let s := run (init 8) (firstn 7 day) in dead (slots s 0) = true /\ used (slots s 0) = true /\ length (jobs s) = 1) /\
  (let s := run (init 8) day in used (slots s 0) = false /\ jobs s = [] /\ N.testbit (restr (slots s 1)) 0 = true /\ used (slots s 1) = true) /\
  ~ admitted (run (init 8) day) 1 (msg 11 own) /\ admitted (run (init 8) (firstn 4 day)) 1 (msg 11 own).
Proof.
  split; [vm_compute; reflexivity|]. split; [vm_compute; auto|]. split; [vm_compute; auto|]. split; [vm_compute; auto|]. split; [vm_compute; auto|].
  split; [intros (_ & H & _); vm_compute in H; discriminate|]. split; [reflexivity|]. split; [vm_compute; reflexivity|].
  split; [right; right; vm_compute; congruence|vm_compute; split; congruence].
Qed.
