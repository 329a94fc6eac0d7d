(* C82: what the daemon hands to the helper is done once and in order; a helper that is
   gone or stuck is noticed, its work is done otherwise, and the daemon survives it. *)
From Coq Require Import List NArith ZArith Lia Bool Arith.
From Verif Require Import Helper.
Import ListNotations.
Open Scope Z_scope.

(* ---- specification ---- *)
(* what an event asks the helper to do *)
Definition asked (e : hev) : list (N * hmsg) :=
  match e with
  | EKill c (Some x) => [(hc_id c, HKill (hc_pid c) x)]
  | EKill c None => [(hc_id c, HRun (hc_path c) (hc_args c) (if hc_wantpid c then hc_pid c else 0))]
  | ERequest true pid rk rt path args => [(0%N, HKill pid (if rk then 15 else 9))]
  | ERequest false pid rk rt path args =>
      [(0%N, if (path =? 0)%N then HKill pid (if rt then 9 else 15) else HRun path args 0)]
  | ESysfs path val => [(0%N, HSysfs path val)]
  | _ => []
  end.
Inductive subseq {A} : list A -> list A -> Prop :=
| sub_nil : subseq [] []
| sub_skip x l1 l2 : subseq l1 l2 -> subseq l1 (x :: l2)
| sub_take x l1 l2 : subseq l1 l2 -> subseq (x :: l1) (x :: l2).
Definition is_run (m : hmsg) : bool := match m with HRun _ _ _ => true | _ => false end.
Definition not_run (m : N * hmsg) : bool := negb (is_run (snd m)).
Definition forks_ok (e : hev) : Prop := match e with ETurn f _ _ => f = true | _ => True end.
Definition reads_ok (e : hev) : Prop := match e with EPoll f _ => f = false | _ => True end.
Definition is_turn (e : hev) : Prop := match e with ETurn _ _ _ => True | _ => False end.

(* Full claim, after any events since the start: memory is intact; only its own end
   ends the daemon; an ended helper leaves nothing it had accepted undone; with the
   helper gone, a process to be killed gets SIGTERM instead; every program that was
   handed over is started; and the helper reports at least every 30 seconds. *)
Definition C82_statement : Prop :=
  forall g t0 l, 0 <= c_ci g ->
    let s := hrun g (hinit g t0) l in
    d_bad s = false /\
    (d_alive s = false -> In EDaemonDies l) /\
    (h_alive s = false -> ~ In EHelperDies l -> q s = []) /\
    (d_alive s = true -> h_alive s = false -> forall c x,
       In (hc_id c, HKill (hc_pid c) 15) (done (hstep g s (EKill c (Some x))))) /\
    (forall m, In m (taken s) -> In m (done s)).

(* ---- lists ---- *)
Lemma sub_refl {A} (l : list A) : subseq l l.
Proof. induction l; [apply sub_nil|apply sub_take; assumption]. Qed.
Lemma sub_nil_l {A} (l : list A) : subseq [] l.
Proof. induction l; [apply sub_nil|apply sub_skip; assumption]. Qed.
Lemma sub_app {A} (a b c d : list A) : subseq a b -> subseq c d -> subseq (a ++ c) (b ++ d).
Proof. induction 1; cbn; intros H1; [exact H1|apply sub_skip; auto|apply sub_take; auto]. Qed.
Lemma sub_In {A} (a b : list A) x : subseq a b -> In x a -> In x b.
Proof. induction 1; cbn; intuition. Qed.

(* ---- order ---- *)
Definition asks (l : list hev) : list (N * hmsg) := flat_map asked l.

Record oinv (s : hst) (a : list (N * hmsg)) : Prop := mkOinv {
  O_acc : acc s = taken s ++ q s;
  O_asks : subseq (acc s) a;
  O_done : subseq (done s) (taken s);
  O_not : filter not_run (done s) = filter not_run (taken s) }.

Lemma oinv_same s s' a b :
  oinv s a -> acc s' = acc s -> taken s' = taken s -> q s' = q s -> done s' = done s -> oinv s' (a ++ b).
Proof.
  intros [A B C D] H1 H2 H3 H4. split; rewrite ?H1, ?H2, ?H3, ?H4; auto.
  rewrite <- (app_nil_r (acc s)). apply sub_app; [exact B|apply sub_nil_l].
Qed.
Lemma oinv_accept s a m b : oinv s a -> oinv (accept m s) (a ++ m :: b).
Proof.
  intros [A B C D]. split; cbn; auto.
  - rewrite A, app_assoc. reflexivity.
  - apply sub_app; [exact B|]. apply sub_take, sub_nil_l.
Qed.
Lemma oinv_perform s a b f : oinv s a -> oinv (perform f s) (a ++ b).
Proof.
  intros I. unfold perform. destruct (q s) as [|m r] eqn:E; [eapply oinv_same; eauto|].
  destruct I as [A B C D]. rewrite E in A. split; cbn.
  - rewrite A, <- app_assoc. reflexivity.
  - rewrite <- (app_nil_r (acc s)). apply sub_app; [exact B|apply sub_nil_l].
  - destruct (snd m); try destruct f; try (apply sub_app; [exact C|apply sub_refl]).
    rewrite <- (app_nil_r (done s)). apply sub_app; [exact C|apply sub_nil_l].
  - assert (Q : not_run m = match snd m with HRun _ _ _ => false | _ => true end)
      by (unfold not_run, is_run; destruct (snd m); reflexivity).
    destruct (snd m); try destruct f; rewrite !filter_app; cbn [filter]; rewrite Q, ?app_nil_r, ?D; reflexivity.
Qed.

Lemma send_status_frame g now s :
  let s' := send_status g now s in
  acc s' = acc s /\ taken s' = taken s /\ q s' = q s /\ done s' = done s /\ d_alive s' = d_alive s /\
  d_kill s' = d_kill s /\ d_bad s' = d_bad s /\ d_ci s' = d_ci s /\ d_polled s' = d_polled s /\ d_ran s' = d_ran s /\
  h_kids s' = h_kids s /\ h_iter s' = h_iter s.
Proof.
  unfold send_status. destruct (negb (status_open s)); [destruct (c_ign g)|destruct (st s <? STATUS_CAP)%N]; cbn; repeat split; reflexivity.
Qed.

Lemma turn_shape g f n t s :
  h_alive s = true ->
  let s0 := set_iter t s in
  let s1 := if (30 <=? t - h_good s) && (2 <=? t - h_send s) then send_status g t s0 else s0 in
  helper_turn g f n t s =
    if negb (h_alive s1) then s1
    else if negb (writer_open s) then helper_dies (perform f s1) else reap n (perform f s1).
Proof. intros H. unfold helper_turn. rewrite H. reflexivity. Qed.

Lemma oinv_turn g f n t s a b : oinv s a -> oinv (helper_turn g f n t s) (a ++ b).
Proof.
  intros I. destruct (h_alive s) eqn:HA.
  2:{ unfold helper_turn. rewrite HA. cbn. eapply oinv_same; eauto. }
  rewrite (turn_shape _ _ _ _ _ HA).
  set (s1 := if (30 <=? t - h_good s) && (2 <=? t - h_send s) then send_status g t (set_iter t s) else set_iter t s).
  assert (E : acc s1 = acc s /\ taken s1 = taken s /\ q s1 = q s /\ done s1 = done s).
  { unfold s1. destruct ((30 <=? t - h_good s) && (2 <=? t - h_send s)); [|repeat split; reflexivity].
    destruct (send_status_frame g t (set_iter t s)) as (A1 & A2 & A3 & A4 & _). rewrite A1, A2, A3, A4. repeat split; reflexivity. }
  destruct E as (E1 & E2 & E3 & E4).
  cbv zeta. destruct (negb (h_alive s1)); [eapply oinv_same; eauto|].
  assert (P : oinv (perform f s1) (a ++ b)).
  { apply oinv_perform. destruct I as [A B C D]. split; rewrite ?E1, ?E2, ?E3, ?E4; assumption. }
  destruct (negb (writer_open s)); rewrite <- (app_nil_r (a ++ b)); eapply oinv_same; try exact P; reflexivity.
Qed.

Lemma oinv_plain g m s a : oinv s a -> oinv (send_plain g m s) (a ++ [m]).
Proof.
  intros I. unfold send_plain. destruct (negb (d_kill s)); [eapply oinv_same; eauto|].
  destruct (write_msg g s); [apply oinv_accept; exact I|eapply oinv_same; eauto..].
Qed.

Lemma oinv_step g s a e : oinv s a -> oinv (hstep g s e) (a ++ asked e).
Proof.
  intros I. destruct e as [c sig|force pid rk rt path args|path val|f now|f n t| | |c]; cbn [hstep].
  - destruct (negb (d_alive s)); [eapply oinv_same; eauto|].
    unfold send_helper_kill.
    destruct (match sig with None => d_ran s (hc_id c) | Some _ => false end); [eapply oinv_same; eauto|].
    destruct (negb (d_kill s)); [eapply oinv_same; eauto|].
    destruct (write_msg g s); try (eapply oinv_same; eauto; reflexivity).
    destruct sig as [x|]; cbn [asked kill_msg].
    + apply oinv_accept. exact I.
    + destruct (oinv_accept s a (hc_id c, HRun (hc_path c) (hc_args c) (if hc_wantpid c then hc_pid c else 0)) [] I) as [A B C D].
      split; cbn in *; assumption.
  - destruct (negb (d_alive s)); [eapply oinv_same; eauto|].
    replace (asked (ERequest force pid rk rt path args)) with [(NOCLIENT, request_msg force pid rk rt path args)].
    + apply oinv_plain. exact I.
    + unfold request_msg, asked, NOCLIENT. destruct force, rk, rt, (path =? 0)%N; reflexivity.
  - destruct (negb (d_alive s)); [eapply oinv_same; eauto|]. apply oinv_plain. exact I.
  - destruct (negb (d_alive s)); [eapply oinv_same; eauto|].
    unfold poll_helper. destruct (negb (d_polled s)); [eapply oinv_same; eauto|].
    destruct (0 <? st s)%N, f, (negb (h_alive s)); eapply oinv_same; eauto; reflexivity.
  - apply oinv_turn. exact I.
  - eapply oinv_same; eauto; reflexivity.
  - destruct (negb (d_alive s)); eapply oinv_same; eauto; reflexivity.
  - destruct (negb (d_alive s)); eapply oinv_same; eauto; reflexivity.
Qed.

Lemma hrun_snoc g s l e : hrun g s (l ++ [e]) = hstep g (hrun g s l) e.
Proof. unfold hrun. rewrite fold_left_app. reflexivity. Qed.

Lemma oinv_run g t0 l : oinv (hrun g (hinit g t0) l) (asks l).
Proof.
  induction l as [|e l IH] using rev_ind.
  - split; cbn; auto using sub_nil.
  - rewrite hrun_snoc. unfold asks. rewrite flat_map_app. cbn [flat_map]. rewrite app_nil_r. apply oinv_step. exact IH.
Qed.

(* The pipe passes what was asked, each request at most once and in order; the helper
   takes the messages in that order; kills and sysfs writes it takes are done, each
   once, and of the programs at most what was asked. *)
Theorem C82_in_order :
  forall g t0 l, let s := hrun g (hinit g t0) l in
    subseq (taken s ++ q s) (asks l) /\ acc s = taken s ++ q s /\
    subseq (done s) (taken s) /\ filter not_run (done s) = filter not_run (taken s).
Proof. intros g t0 l s. destruct (oinv_run g t0 l) as [A B C D]. fold s in A, B, C, D. rewrite <- A. auto. Qed.

(* nothing is done that was not asked for *)
Theorem C82_only_asked :
  forall g t0 l m, In m (done (hrun g (hinit g t0) l)) -> exists e, In e l /\ In m (asked e).
Proof.
  intros g t0 l m H. destruct (C82_in_order g t0 l) as (A & _ & C & _).
  apply in_flat_map. refine (sub_In _ _ _ A _). apply in_or_app. left. exact (sub_In _ _ _ C H).
Qed.

(* ---- programs are started if fork works ---- *)
Lemma perform_done f s : f = true -> done s = taken s -> done (perform f s) = taken (perform f s).
Proof. intros -> H. unfold perform. destruct (q s) as [|m r]; [exact H|]. cbn. destruct (snd m); rewrite H; reflexivity. Qed.
Lemma forks_step g s e : forks_ok e -> done s = taken s -> done (hstep g s e) = taken (hstep g s e).
Proof.
  intros F H. destruct e as [c sig|force pid rk rt path args|path val|f now|f n t| | |c]; cbn [hstep].
  - destruct (negb (d_alive s)); [exact H|]. unfold send_helper_kill.
    destruct (match sig with None => d_ran s (hc_id c) | Some _ => false end); [exact H|].
    destruct (negb (d_kill s)); [exact H|]. destruct (write_msg g s); try exact H. destruct sig; exact H.
  - destruct (negb (d_alive s)); [exact H|]. unfold send_plain. destruct (negb (d_kill s)); [exact H|]. destruct (write_msg g s); exact H.
  - destruct (negb (d_alive s)); [exact H|]. unfold send_plain. destruct (negb (d_kill s)); [exact H|]. destruct (write_msg g s); exact H.
  - destruct (negb (d_alive s)); [exact H|]. unfold poll_helper. destruct (negb (d_polled s)); [exact H|].
    destruct (0 <? st s)%N, f, (negb (h_alive s)); exact H.
  - destruct (h_alive s) eqn:HA; [|unfold helper_turn; rewrite HA; exact H].
    rewrite (turn_shape _ _ _ _ _ HA).
    set (s1 := if (30 <=? t - h_good s) && (2 <=? t - h_send s) then send_status g t (set_iter t s) else set_iter t s).
    assert (E : done s1 = taken s1).
    { unfold s1. destruct ((30 <=? t - h_good s) && (2 <=? t - h_send s)); [|exact H].
      destruct (send_status_frame g t (set_iter t s)) as (_ & A2 & _ & A4 & _). rewrite A2, A4. exact H. }
    cbv zeta. destruct (negb (h_alive s1)); [exact E|].
    pose proof (perform_done f s1 F E) as P. destruct (negb (writer_open s)); exact P.
  - exact H.
  - destruct (negb (d_alive s)); exact H.
  - destruct (negb (d_alive s)); exact H.
Qed.
Theorem C82_all_done_partial :
  forall g t0 l, Forall forks_ok l -> let s := hrun g (hinit g t0) l in done s = taken s.
Proof.
  intros g t0 l F. cbv zeta. induction l as [|e l IH] using rev_ind; [reflexivity|].
  rewrite hrun_snoc. apply Forall_app in F as [F1 F2]. inversion F2; subst. apply forks_step; auto.
Qed.

(* A helper that gets to run while the daemon keeps the pipe open does everything that
   was accepted: each turn takes one message. *)
Lemma turn_takes g f n t s :
  h_alive s = true -> writer_open s = true ->
  let s' := helper_turn g f n t s in
  h_alive s' = true /\ writer_open s' = true /\ q s' = tl (q s) /\ acc s' = acc s.
Proof.
  intros HA W. cbv zeta. rewrite (turn_shape _ _ _ _ _ HA).
  set (s1 := if (30 <=? t - h_good s) && (2 <=? t - h_send s) then send_status g t (set_iter t s) else set_iter t s).
  assert (E : h_alive s1 = true /\ q s1 = q s /\ acc s1 = acc s /\ writer_open s1 = writer_open s).
  { unfold s1. destruct ((30 <=? t - h_good s) && (2 <=? t - h_send s)); [|repeat split; try reflexivity; exact HA].
    unfold send_status, status_open. unfold writer_open in W. cbn [d_alive d_kill set_iter]. rewrite W. cbn.
    destruct (st s <? STATUS_CAP)%N; cbn; repeat split; try reflexivity; exact HA. }
  destruct E as (E1 & E2 & E3 & E4). cbv zeta. rewrite E1, W. cbn [negb].
  unfold reap, perform, writer_open in *. rewrite E2. destruct (q s) as [|m r] eqn:Q; cbn;
    repeat split; congruence.
Qed.
Theorem C82_drained :
  forall g s l, h_alive s = true -> writer_open s = true -> Forall is_turn l ->
    let s' := hrun g s l in
    h_alive s' = true /\ acc s' = acc s /\ q s' = skipn (length l) (q s) /\
    (acc s = taken s ++ q s -> (length (q s) <= length l)%nat -> taken s' = acc s).
Proof.
  intros g s l HA W F. cbv zeta.
  assert (K : h_alive (hrun g s l) = true /\ acc (hrun g s l) = acc s /\ q (hrun g s l) = skipn (length l) (q s)).
  { revert s HA W. induction F as [|e l T F IH]; intros s HA W; [auto|].
    destruct e as [| | | |f n t| | |]; try contradiction. cbn [hrun fold_left hstep].
    destruct (turn_takes g f n t s HA W) as (A & B & C & D).
    destruct (IH _ A B) as (A' & B' & C'). unfold hrun in *.
    split; [exact A'|]. split; [congruence|]. rewrite C', C. cbn [length]. destruct (q s); [destruct (length l)|]; reflexivity. }
  destruct K as (K1 & K2 & K3). split; [exact K1|]. split; [exact K2|]. split; [exact K3|].
  intros A L. rewrite skipn_all2 in K3 by exact L.
  assert (G : forall l s a, oinv s a -> oinv (hrun g s l) (a ++ asks l)).
  { clear. induction l as [|e l IH]; intros s a I; [cbn; rewrite app_nil_r; exact I|].
    cbn [hrun fold_left asks flat_map]. rewrite app_assoc. apply IH. apply oinv_step. exact I. }
  assert (T : acc (hrun g s l) = taken (hrun g s l) ++ q (hrun g s l)).
  { clear - A F. revert s A. induction F as [|e l T F IH]; intros s A; [exact A|].
    destruct e as [| | | |f n t| | |]; try contradiction. cbn [hrun fold_left]. apply IH. cbn [hstep].
    destruct (h_alive s) eqn:HA; [|unfold helper_turn; rewrite HA; exact A].
    rewrite (turn_shape _ _ _ _ _ HA).
    set (s1 := if (30 <=? t - h_good s) && (2 <=? t - h_send s) then send_status g t (set_iter t s) else set_iter t s).
    assert (E : acc s1 = taken s1 ++ q s1).
    { unfold s1. destruct ((30 <=? t - h_good s) && (2 <=? t - h_send s)); [|exact A].
      destruct (send_status_frame g t (set_iter t s)) as (A1 & A2 & A3 & _). rewrite A1, A2, A3. exact A. }
    cbv zeta. destruct (negb (h_alive s1)); [exact E|].
    assert (P : acc (perform f s1) = taken (perform f s1) ++ q (perform f s1)).
    { unfold perform. destruct (q s1) as [|m r] eqn:Q; [rewrite Q; exact E|]. cbn. rewrite E, <- app_assoc. reflexivity. }
    destruct (negb (writer_open s)); exact P. }
  rewrite K2, K3, app_nil_r in T. symmetry. exact T.
Qed.

(* ---- the program of a client is run once ---- *)
Definition runs_for (c : N) (l : list (N * hmsg)) : nat :=
  length (filter (fun m => (fst m =? c)%N && is_run (snd m)) l).
Definition freed (c : N) (l : list hev) : nat :=
  length (filter (fun e => match e with EClientFreed j => (j =? c)%N | _ => false end) l).

Lemma runs_app c a b : runs_for c (a ++ b) = (runs_for c a + runs_for c b)%nat.
Proof. unfold runs_for. rewrite filter_app, app_length. reflexivity. Qed.

Lemma turn_frame g f n t s :
  let s' := helper_turn g f n t s in
  acc s' = acc s /\ d_ran s' = d_ran s /\ d_alive s' = d_alive s /\ d_kill s' = d_kill s /\ d_bad s' = d_bad s /\
  d_ci s' = d_ci s /\ d_polled s' = d_polled s.
Proof.
  cbv zeta. destruct (h_alive s) eqn:HA; [|unfold helper_turn; rewrite HA; repeat split; reflexivity].
  rewrite (turn_shape _ _ _ _ _ HA).
  set (s1 := if (30 <=? t - h_good s) && (2 <=? t - h_send s) then send_status g t (set_iter t s) else set_iter t s).
  assert (E : acc s1 = acc s /\ d_ran s1 = d_ran s /\ d_alive s1 = d_alive s /\ d_kill s1 = d_kill s /\ d_bad s1 = d_bad s /\
     d_ci s1 = d_ci s /\ d_polled s1 = d_polled s).
  { unfold s1. destruct ((30 <=? t - h_good s) && (2 <=? t - h_send s)); [|repeat split; reflexivity].
    destruct (send_status_frame g t (set_iter t s)) as (A1 & A2 & A3 & A4 & A5 & A6 & A7 & A8 & A9 & A10 & _).
    rewrite A1, A5, A6, A7, A8, A9, A10. repeat split; reflexivity. }
  cbv zeta. destruct (negb (h_alive s1)); [exact E|].
  assert (P : forall s2, acc (perform f s2) = acc s2 /\ d_ran (perform f s2) = d_ran s2 /\ d_alive (perform f s2) = d_alive s2 /\
    d_kill (perform f s2) = d_kill s2 /\ d_bad (perform f s2) = d_bad s2 /\ d_ci (perform f s2) = d_ci s2 /\ d_polled (perform f s2) = d_polled s2).
  { intros s2. unfold perform. destruct (q s2); repeat split; reflexivity. }
  destruct (P s1) as (P1 & P2 & P3 & P4 & P5 & P6 & P7). destruct E as (E1 & E2 & E3 & E4 & E5 & E6 & E7).
  destruct (negb (writer_open s)); cbn; repeat split; congruence.
Qed.

Lemma run_once_step g c s e k :
  c <> 0%N ->
  (runs_for c (acc s) <= k + (if d_ran s c then 1 else 0))%nat ->
  (runs_for c (acc (hstep g s e)) <=
     k + (match e with EClientFreed j => if (j =? c)%N then 1 else 0 | _ => 0 end) + (if d_ran (hstep g s e) c then 1 else 0))%nat.
Proof.
  intros NZ H.
  assert (R1 : forall m, runs_for c [m] = if (fst m =? c)%N && is_run (snd m) then 1%nat else 0%nat).
  { intros m. unfold runs_for. cbn. destruct ((fst m =? c)%N && is_run (snd m)); reflexivity. }
  assert (Z0 : (NOCLIENT =? c)%N = false) by (apply N.eqb_neq; unfold NOCLIENT; congruence).
  destruct e as [cl sig|force pid rk rt path args|path val|f now|f n t| | |j]; cbn [hstep]; rewrite ?Nat.add_0_r.
  - destruct (negb (d_alive s)); [exact H|]. unfold send_helper_kill.
    destruct sig as [x|].
    + cbn [orb]. destruct (negb (d_kill s)); [exact H|]. destruct (write_msg g s); try exact H.
      cbn [accept acc d_ran]. rewrite runs_app, R1. cbn [fst snd kill_msg is_run]. rewrite andb_false_r. lia.
    + destruct (d_ran s (hc_id cl)) eqn:DR; [exact H|].
      destruct (negb (d_kill s)); [exact H|]. destruct (write_msg g s); try exact H.
      cbn [accept set_ran acc d_ran]. rewrite runs_app, R1. cbn [fst snd kill_msg is_run]. rewrite andb_true_r.
      rewrite (N.eqb_sym c (hc_id cl)). destruct (hc_id cl =? c)%N eqn:E; [|lia].
      apply N.eqb_eq in E. rewrite E in DR. rewrite DR in H. lia.
  - destruct (negb (d_alive s)); [exact H|]. unfold send_plain. destruct (negb (d_kill s)); [exact H|].
    destruct (write_msg g s); try exact H. cbn [accept acc d_ran]. rewrite runs_app, R1. cbn [fst]. rewrite Z0. cbn. lia.
  - destruct (negb (d_alive s)); [exact H|]. unfold send_plain. destruct (negb (d_kill s)); [exact H|].
    destruct (write_msg g s); try exact H. cbn [accept acc d_ran]. rewrite runs_app, R1. cbn [fst]. rewrite Z0. cbn. lia.
  - destruct (negb (d_alive s)); [exact H|]. unfold poll_helper. destruct (negb (d_polled s)); [exact H|].
    destruct (0 <? st s)%N, f, (negb (h_alive s)); exact H.
  - destruct (turn_frame g f n t s) as (A & B & _). rewrite A, B. exact H.
  - exact H.
  - destruct (negb (d_alive s)); exact H.
  - destruct (negb (d_alive s)).
    + destruct (j =? c)%N; lia.
    + cbn [clear_ran acc d_ran]. rewrite (N.eqb_sym c j). destruct (j =? c)%N; [|lia]. destruct (d_ran s c); lia.
Qed.
Theorem C82_program_once :
  forall g t0 l c, c <> 0%N -> let s := hrun g (hinit g t0) l in
    (runs_for c (done s) <= 1 + freed c l)%nat /\ (runs_for c (acc s) <= 1 + freed c l)%nat.
Proof.
  intros g t0 l c NZ. cbv zeta.
  assert (A : (runs_for c (acc (hrun g (hinit g t0) l)) <= freed c l + (if d_ran (hrun g (hinit g t0) l) c then 1 else 0))%nat).
  { induction l as [|e l IH] using rev_ind; [cbn; lia|]. rewrite hrun_snoc.
    pose proof (run_once_step g c _ e _ NZ IH) as R. unfold freed in *. rewrite filter_app, app_length.
    eapply Nat.le_trans; [exact R|]. apply Nat.add_le_mono_r. apply Nat.add_le_mono_l.
    cbn [filter]. destruct e; cbn; try lia. destruct (c0 =? c)%N; cbn; lia. }
  assert (SL : forall (a b : list (N * hmsg)), subseq a b -> (runs_for c a <= runs_for c b)%nat).
  { unfold runs_for. induction 1; cbn; [lia| |]; destruct ((fst x =? c)%N && is_run (snd x)); cbn; lia. }
  split; [|destruct (d_ran (hrun g (hinit g t0) l) c); lia].
  destruct (C82_in_order g t0 l) as (_ & E & D & _).
  pose proof (SL _ _ D) as L1. rewrite E, runs_app in A. destruct (d_ran (hrun g (hinit g t0) l) c); lia.
Qed.

(* ---- memory ---- *)
Lemma mem_step g s e :
  reads_ok e -> d_bad s = false -> (d_kill s = true \/ d_polled s = true -> 0 <= d_ci s) ->
  (0 <= d_ci s -> d_kill s = true) ->
  let s' := hstep g s e in
  d_bad s' = false /\ (d_kill s' = true \/ d_polled s' = true -> 0 <= d_ci s') /\ (0 <= d_ci s' -> d_kill s' = true).
Proof.
  intros R B K C.
  assert (CL : 0 <= d_ci s -> d_bad (close_helper s) = false /\
     (d_kill (close_helper s) = true \/ d_polled (close_helper s) = true -> 0 <= d_ci (close_helper s)) /\
     (0 <= d_ci (close_helper s) -> d_kill (close_helper s) = true)).
  { intros P. unfold close_helper. cbn. replace (0 <=? d_ci s) with true by lia. rewrite B. cbn.
    split; [reflexivity|]. split; [intros [X|X]; discriminate X|lia]. }
  destruct e as [c sig|force pid rk rt path args|path val|f now|f n t| | |c]; cbn [hstep].
  - destruct (negb (d_alive s)); [auto|]. unfold send_helper_kill.
    destruct (match sig with None => d_ran s (hc_id c) | Some _ => false end); [auto|].
    destruct (d_kill s) eqn:DK; [|cbn; rewrite DK; auto]. cbn [negb]. destruct (write_msg g s).
    + destruct sig; cbn; rewrite DK; auto.
    + cbn; rewrite DK; auto.
    + apply CL. apply K. left; reflexivity.
    + cbn; rewrite DK; auto.
  - destruct (negb (d_alive s)); [auto|]. unfold send_plain. destruct (d_kill s) eqn:DK; [|cbn; rewrite DK; auto]. cbn [negb].
    destruct (write_msg g s); cbn; rewrite DK; auto.
  - destruct (negb (d_alive s)); [auto|]. unfold send_plain. destruct (d_kill s) eqn:DK; [|cbn; rewrite DK; auto]. cbn [negb].
    destruct (write_msg g s); cbn; rewrite DK; auto.
  - destruct (negb (d_alive s)); [auto|]. cbn in R. subst f. unfold poll_helper.
    destruct (d_polled s) eqn:DP; [|cbn; rewrite DP; auto]. cbn [negb].
    assert (P : 0 <= d_ci s) by (apply K; right; reflexivity).
    destruct (0 <? st s)%N; destruct (negb (h_alive s)); cbn; rewrite ?DP;
      try (replace (0 <=? d_ci s) with true by lia); rewrite ?B; cbn; repeat split; auto; try lia;
      intros [X|X]; discriminate X.
  - destruct (turn_frame g f n t s) as (_ & _ & _ & A1 & A2 & A3 & A4). rewrite A1, A2, A3, A4. auto.
  - cbn. auto.
  - destruct (negb (d_alive s)); cbn; auto.
  - destruct (negb (d_alive s)); cbn; auto.
Qed.
(* Memory is intact as long as reading a status never fails; missing: a failed read and
   the end of the helper reported together. *)
Theorem C82_memory_partial :
  forall g t0 l, 0 <= c_ci g -> Forall reads_ok l -> d_bad (hrun g (hinit g t0) l) = false.
Proof.
  intros g t0 l C F.
  enough (H : d_bad (hrun g (hinit g t0) l) = false /\
     (d_kill (hrun g (hinit g t0) l) = true \/ d_polled (hrun g (hinit g t0) l) = true -> 0 <= d_ci (hrun g (hinit g t0) l)) /\
     (0 <= d_ci (hrun g (hinit g t0) l) -> d_kill (hrun g (hinit g t0) l) = true)) by apply H.
  induction l as [|e l IH] using rev_ind; [cbn; repeat split; auto|].
  rewrite hrun_snoc. apply Forall_app in F as [F1 F2]. inversion F2; subst.
  destruct (IH F1) as (A & B & D). apply mem_step; assumption.
Qed.

(* ---- a helper that is gone or stuck ---- *)
(* the slot of the helper is polled, and its number known, as long as the pipe is open *)
Definition slot_ok (g : hcfg) (s : hst) : Prop :=
  d_polled s = d_kill s /\ d_ci s = (if d_kill s then c_ci g else -1).
Lemma slot_step g s e : 0 <= c_ci g -> slot_ok g s -> slot_ok g (hstep g s e).
Proof.
  intros C [P I].
  assert (CL : slot_ok g (close_helper s)).
  { unfold slot_ok, close_helper. cbn. rewrite P, I. destruct (d_kill s); [replace (0 <=? c_ci g) with true by lia|]; split; reflexivity. }
  assert (K : forall s', d_polled s' = d_polled s -> d_kill s' = d_kill s -> d_ci s' = d_ci s -> slot_ok g s').
  { intros s' A B D. unfold slot_ok. rewrite A, B, D. split; assumption. }
  destruct e as [c sig|force pid rk rt path args|path val|f now|f n t| | |c]; cbn [hstep].
  - destruct (negb (d_alive s)); [split; assumption|]. unfold send_helper_kill.
    destruct (match sig with None => d_ran s (hc_id c) | Some _ => false end); [split; assumption|].
    destruct (negb (d_kill s)); [split; assumption|]. destruct (write_msg g s); [|apply K; reflexivity|exact CL|apply K; reflexivity].
    destruct sig; apply K; reflexivity.
  - destruct (negb (d_alive s)); [split; assumption|]. unfold send_plain.
    destruct (negb (d_kill s)); [split; assumption|]. destruct (write_msg g s); apply K; reflexivity.
  - destruct (negb (d_alive s)); [split; assumption|]. unfold send_plain.
    destruct (negb (d_kill s)); [split; assumption|]. destruct (write_msg g s); apply K; reflexivity.
  - destruct (negb (d_alive s)); [split; assumption|]. unfold poll_helper. destruct (negb (d_polled s)); [split; assumption|].
    unfold slot_ok in CL. cbn in CL. destruct CL as [CL1 CL2].
    destruct (0 <? st s)%N, f, (negb (h_alive s)); cbn; unfold slot_ok; cbn; rewrite ?CL1; auto.
  - destruct (turn_frame g f n t s) as (_ & _ & _ & A1 & _ & A3 & A4). apply K; assumption.
  - apply K; reflexivity.
  - destruct (negb (d_alive s)); [split; assumption|apply K; reflexivity].
  - destruct (negb (d_alive s)); [split; assumption|apply K; reflexivity].
Qed.
Lemma slot_run g t0 l : 0 <= c_ci g -> slot_ok g (hrun g (hinit g t0) l).
Proof.
  intros C. induction l as [|e l IH] using rev_ind; [split; reflexivity|]. rewrite hrun_snoc. apply slot_step; assumption.
Qed.
(* The next dispatch after the helper's end, or after a status that cannot be read, closes
   the pipes and stops looking at them. *)
Theorem C82_loss_noticed :
  forall g t0 l fails now, 0 <= c_ci g ->
    let s := hrun g (hinit g t0) l in
    let s' := hstep g s (EPoll fails now) in
    d_alive s = true -> h_alive s = false \/ (fails = true /\ (0 < st s)%N) ->
    d_kill s' = false /\ d_polled s' = false.
Proof.
  intros g t0 l fails now C. cbv zeta. pose proof (slot_run g t0 l C) as [P I].
  set (s := hrun g (hinit g t0) l) in *. clearbody s. intros A H. cbn [hstep]. rewrite A. cbn [negb]. unfold poll_helper.
  destruct (d_polled s) eqn:DP; cbn [negb]; [|split; congruence]. rewrite <- P in I.
  assert (I0 : (0 <=? d_ci s) = true) by lia.
  destruct H as [H|[-> H]].
  - rewrite H. cbn [negb]. destruct (0 <? st s)%N, fails; cbn; rewrite ?I0; split; reflexivity.
  - apply N.ltb_lt in H. rewrite H. destruct (h_alive s); cbn; rewrite ?I0; split; reflexivity.
Qed.
(* Memory is harmed by a dispatch exactly if both happen in it. *)
Theorem C82_double_close :
  forall g t0 l fails now, 0 <= c_ci g ->
    let s := hrun g (hinit g t0) l in
    d_alive s = true -> d_kill s = true ->
    d_bad (hstep g s (EPoll fails now)) = (d_bad s || (fails && (0 <? st s)%N && negb (h_alive s))).
Proof.
  intros g t0 l fails now C. cbv zeta. pose proof (slot_run g t0 l C) as [P I].
  set (s := hrun g (hinit g t0) l) in *. clearbody s. intros A K. cbn [hstep]. rewrite A. cbn [negb]. unfold poll_helper.
  rewrite P, K. cbn [negb]. rewrite K in I. assert (I0 : (0 <=? d_ci s) = true) by lia.
  destruct (0 <? st s)%N, fails, (h_alive s); cbn; rewrite ?I0; cbn; rewrite ?orb_false_r; reflexivity.
Qed.

(* After the daemon closed its end nothing is handed over any more, to anyone: there is no
   other way to signal a process. *)
Theorem C82_no_fallback :
  forall g l s, d_kill s = false ->
    d_kill (hrun g s l) = false /\ acc (hrun g s l) = acc s.
Proof.
  intros g l. induction l as [|e l IH]; intros s K; [auto|]. cbn [hrun fold_left].
  assert (S1 : d_kill (hstep g s e) = false /\ acc (hstep g s e) = acc s).
  { destruct e as [c sig|force pid rk rt path args|path val|f now|f n t| | |c]; cbn [hstep].
    - destruct (negb (d_alive s)); [auto|]. unfold send_helper_kill.
      destruct (match sig with None => d_ran s (hc_id c) | Some _ => false end); [auto|]. rewrite K. auto.
    - destruct (negb (d_alive s)); [auto|]. unfold send_plain. rewrite K. auto.
    - destruct (negb (d_alive s)); [auto|]. unfold send_plain. rewrite K. auto.
    - destruct (negb (d_alive s)); [auto|]. unfold poll_helper. destruct (negb (d_polled s)); [auto|].
      destruct (0 <? st s)%N, f, (negb (h_alive s)); cbn; auto.
    - destruct (turn_frame g f n t s) as (A & _ & _ & B & _). rewrite A, B. auto.
    - auto.
    - destruct (negb (d_alive s)); cbn; auto.
    - destruct (negb (d_alive s)); cbn; auto. }
  destruct S1 as [A B]. destruct (IH _ A) as [A' B']. unfold hrun in *. split; congruence.
Qed.

(* What the daemon hands over does not depend on when it last heard of the helper. *)
Definition heard (t : Z) (s : hst) : hst :=
  mkHst (d_alive s) (d_kill s) (d_ci s) (d_polled s) (d_pid s) (d_bad s) t (d_full s) (d_ran s)
    (q s) (st s) (h_alive s) (h_iter s) (h_send s) (h_good s) (h_kids s) (h_fast s) (taken s) (done s) (acc s).
Theorem C82_silence_ignored :
  forall g s e t, asked e <> [] -> hstep g (heard t s) e = heard t (hstep g s e).
Proof.
  intros g s e t H. destruct e as [c sig|force pid rk rt path args|path val|f now|f n u| | |c]; try (exfalso; apply H; reflexivity); cbn [hstep heard d_alive].
  - destruct (negb (d_alive s)); [reflexivity|]. unfold send_helper_kill. cbn [heard d_ran d_kill].
    destruct (match sig with None => d_ran s (hc_id c) | Some _ => false end); [reflexivity|].
    destruct (negb (d_kill s)); [reflexivity|]. unfold write_msg. cbn [h_alive heard q].
    destruct (negb (h_alive s)); [destruct (c_ign g); reflexivity|]. destruct (N.of_nat (length (q s)) <? MSG_CAP)%N; [|reflexivity].
    destruct sig; reflexivity.
  - destruct (negb (d_alive s)); [reflexivity|]. unfold send_plain. cbn [heard d_kill].
    destruct (negb (d_kill s)); [reflexivity|]. unfold write_msg. cbn [h_alive heard q].
    destruct (negb (h_alive s)); [destruct (c_ign g); reflexivity|]. destruct (N.of_nat (length (q s)) <? MSG_CAP)%N; reflexivity.
  - destruct (negb (d_alive s)); [reflexivity|]. unfold send_plain. cbn [heard d_kill].
    destruct (negb (d_kill s)); [reflexivity|]. unfold write_msg. cbn [h_alive heard q].
    destruct (negb (h_alive s)); [destruct (c_ign g); reflexivity|]. destruct (N.of_nat (length (q s)) <? MSG_CAP)%N; reflexivity.
Qed.

(* The helper does not outlive the daemon by more than one turn. *)
Theorem C82_helper_ends :
  forall g f n t s, writer_open s = false -> h_alive (helper_turn g f n t s) = false.
Proof.
  intros g f n t s W. destruct (h_alive s) eqn:HA; [|unfold helper_turn; rewrite HA; exact HA].
  rewrite (turn_shape _ _ _ _ _ HA). cbv zeta.
  match goal with |- h_alive (if negb (h_alive ?x) then _ else _) = _ => destruct (h_alive x) eqn:E end; cbn [negb]; [|exact E].
  rewrite W. reflexivity.
Qed.

(* ---- heartbeat ---- *)
(* poll returns in time, the status pipe is read often enough, both ends are open *)
Definition on_time (s : hst) (e : hev) : Prop :=
  match e with
  | ETurn _ _ now => h_alive s = true /\ writer_open s = true /\ (st s < 16384)%N /\
      h_iter s <= now <= h_iter s + (if h_fast s then 1 else 30)
  | EHelperDies => False
  | _ => True
  end.
Fixpoint punctual (g : hcfg) (s : hst) (l : list hev) : Prop :=
  match l with [] => True | e :: r => on_time s e /\ punctual g (hstep g s e) r end.
Definition beat (s : hst) : Prop := h_good s <= h_iter s < h_good s + 30 /\ h_send s = h_good s.

Lemma other_frame g s e : ~ is_turn e ->
  h_good (hstep g s e) = h_good s /\ h_iter (hstep g s e) = h_iter s /\ h_send (hstep g s e) = h_send s.
Proof.
  intros T. destruct e as [c sig|force pid rk rt path args|path val|f now|f n t| | |c]; cbn [hstep]; try (exfalso; apply T; exact I).
  - destruct (negb (d_alive s)); [auto|]. unfold send_helper_kill.
    destruct (match sig with None => d_ran s (hc_id c) | Some _ => false end); [auto|].
    destruct (negb (d_kill s)); [auto|]. destruct (write_msg g s); try (cbn; auto; fail). destruct sig; cbn; auto.
  - destruct (negb (d_alive s)); [auto|]. unfold send_plain. destruct (negb (d_kill s)); [auto|]. destruct (write_msg g s); cbn; auto.
  - destruct (negb (d_alive s)); [auto|]. unfold send_plain. destruct (negb (d_kill s)); [auto|]. destruct (write_msg g s); cbn; auto.
  - destruct (negb (d_alive s)); [auto|]. unfold poll_helper. destruct (negb (d_polled s)); [auto|].
    destruct (0 <? st s)%N, f, (negb (h_alive s)); cbn; auto.
  - cbn. auto.
  - destruct (negb (d_alive s)); cbn; auto.
  - destruct (negb (d_alive s)); cbn; auto.
Qed.
Lemma turn_beat g f n t s : on_time s (ETurn f n t) -> beat s ->
  let s' := helper_turn g f n t s in
  beat s' /\ h_iter s' = t /\
  (t - h_good s < 30 /\ h_good s' = h_good s /\ st s' = st s \/
   30 <= t - h_good s <= 59 /\ h_good s' = t /\ st s' = (st s + 1)%N).
Proof.
  intros (HA & W & SC & T1 & T2) [B1 B2]. cbv zeta. rewrite (turn_shape _ _ _ _ _ HA).
  unfold send_status, status_open. unfold writer_open in W. cbn [set_iter d_alive d_kill st].
  rewrite W. cbn [negb]. replace (st s <? STATUS_CAP)%N with true by (symmetry; apply N.ltb_lt; exact SC).
  rewrite B2. assert (t <= h_iter s + 30) by (destruct (h_fast s); lia).
  destruct (30 <=? t - h_good s) eqn:E.
  - replace (2 <=? t - h_good s) with true by lia. cbn. rewrite HA. unfold writer_open. rewrite W. cbn.
    unfold perform. cbn. destruct (q s); cbn; unfold beat; cbn; (split; [lia|]); (split; [reflexivity|]); right; repeat split; lia.
  - cbn. rewrite HA. unfold writer_open. rewrite W. cbn.
    unfold perform. cbn. destruct (q s); cbn; unfold beat; cbn; (split; [lia|]); (split; [reflexivity|]); left; repeat split; lia.
Qed.
Lemma punctual_beat g l : forall s, punctual g s l -> beat s -> beat (hrun g s l).
Proof.
  induction l as [|e l IH]; intros s P B; [exact B|]. destruct P as [O P]. cbn [hrun fold_left]. apply IH; [exact P|].
  destruct e as [c sig|force pid rk rt path args|path val|f now|f n t| | |c]; try (
    match goal with |- beat (hstep ?g ?s ?e) =>
      destruct (other_frame g s e) as (A1 & A2 & A3); [intros X; exact X|]; unfold beat in *; rewrite A1, A2, A3; exact B end).
  apply (turn_beat g f n t s O B).
Qed.
(* Reports are between 30 and 59 seconds apart, whatever else happens. *)
Theorem C82_heartbeat :
  forall g t0 l f n t, let s := hrun g (hinit g t0) l in
    punctual g (hinit g t0) (l ++ [ETurn f n t]) ->
    let s' := hstep g s (ETurn f n t) in
    (t - h_good s < 30 /\ h_good s' = h_good s /\ st s' = st s) \/
    (30 <= t - h_good s <= 59 /\ h_good s' = t /\ st s' = (st s + 1)%N).
Proof.
  intros g t0 l f n t s P s'.
  assert (PP : punctual g (hinit g t0) l /\ on_time s (ETurn f n t)).
  { subst s s'. revert P. generalize (hinit g t0). induction l as [|e l IH]; intros s P; [destruct P as [P _]; split; [exact I|exact P]|].
    destruct P as [O P]. destruct (IH _ P) as [A B]. split; [split; [exact O|exact A]|exact B]. }
  destruct PP as [P1 P2].
  assert (B : beat s). { apply punctual_beat; [exact P1|]. unfold beat. cbn. lia. }
  destruct (turn_beat g f n t s P2 B) as (_ & _ & R). exact R.
Qed.

(* ---- concrete runs ---- *)
Definition g0 : hcfg := mkHcfg true 0.
Definition g1 : hcfg := mkHcfg false 0.
Definition c1 : hclient := mkHclient 1 100 7 0 true.
Definition c2 : hclient := mkHclient 2 200 0 0 false.
Definition after (g : hcfg) (l : list hev) : hst := hrun g (hinit g 0) l.

Example C82_nonvacuous :
  let l := [EKill c1 None; EKill c1 None; EKill c2 (Some 9); ETurn true 1 1; ESysfs 5 64; ETurn true 0 2; ETurn true 0 3] in
  done (after g0 l) = [(1%N, HRun 7 0 100); (2%N, HKill 200 9); (0%N, HSysfs 5 64)] /\ q (after g0 l) = [] /\
  Forall forks_ok l /\ Forall reads_ok l /\ punctual g0 (hinit g0 0) l /\ h_alive (after g0 l) = true.
Proof.
  cbv zeta. split; [reflexivity|]. split; [reflexivity|].
  split; [repeat apply Forall_cons; try apply Forall_nil; exact I || reflexivity|].
  split; [repeat apply Forall_cons; try apply Forall_nil; exact I || reflexivity|].
  split; [|reflexivity]. vm_compute. repeat split; discriminate || reflexivity.
Qed.

(* a message just before the report is due starts the waiting again *)
Theorem C82_report_after_59_seconds :
  let l := [ESysfs 5 64; ETurn true 0 29] in
  let s := after g0 l in
  punctual g0 (hinit g0 0) (l ++ [ETurn true 0 59]) /\ h_good s = 0 /\ h_good (hstep g0 s (ETurn true 0 59)) = 59.
Proof. vm_compute. repeat split; discriminate || reflexivity. Qed.

(* the read of a status fails in the round in which the helper's end is reported *)
Theorem C82_double_close_refuted :
  exists l, d_bad (after g0 l) = true /\ d_alive (after g0 l) = true.
Proof. exists [EHelperDies; EPoll true 5]. split; reflexivity. Qed.

(* SIGPIPE: the first message after the helper's death ends the daemon, unless the signal
   was ignored by whoever started it *)
Theorem C82_sigpipe_refuted :
  d_alive (after g1 [EHelperDies; EKill c1 (Some 15)]) = false /\
  d_alive (after g1 [EHelperDies; ESysfs 5 64]) = false /\
  d_alive (after g0 [EHelperDies; EKill c1 (Some 15)]) = true.
Proof. repeat split; reflexivity. Qed.
(* with the signal ignored, or not while the helper lives, the daemon stays *)
Theorem C82_daemon_stays_partial :
  forall g t0 l, ~ In EDaemonDies l ->
    (forall l1 e l2, l = l1 ++ e :: l2 -> c_ign g = true \/ h_alive (hrun g (hinit g t0) l1) = true) ->
    d_alive (hrun g (hinit g t0) l) = true.
Proof.
  intros g t0 l ND HL. induction l as [|e l IH] using rev_ind; [reflexivity|].
  rewrite hrun_snoc.
  assert (A : d_alive (hrun g (hinit g t0) l) = true).
  { apply IH; [intros X; apply ND; apply in_or_app; left; exact X|].
    intros l1 x l2 E. apply (HL l1 x (l2 ++ [e])). rewrite E, <- app_assoc. reflexivity. }
  assert (W : forall s, s = hrun g (hinit g t0) l -> write_msg g s <> WDead).
  { intros s ->. unfold write_msg. destruct (HL l e [] eq_refl) as [X|X]; rewrite X;
      [destruct (negb (h_alive (hrun g (hinit g t0) l)))|]; cbn; try discriminate;
      destruct (N.of_nat (length (q (hrun g (hinit g t0) l))) <? MSG_CAP)%N; discriminate. }
  specialize (W _ eq_refl). set (s := hrun g (hinit g t0) l) in *.
  assert (ND' : e <> EDaemonDies) by (intros ->; apply ND, in_or_app; right; left; reflexivity).
  clear HL IH ND.
  destruct e as [c sig|force pid rk rt path args|path val|f now|f n t| | |c]; cbn [hstep]; rewrite ?A; cbn [negb].
  - unfold send_helper_kill. destruct (match sig with None => d_ran s (hc_id c) | Some _ => false end); [exact A|].
    destruct (negb (d_kill s)); [exact A|]. destruct (write_msg g s); try exact A; [destruct sig; exact A|contradiction].
  - unfold send_plain. destruct (negb (d_kill s)); [exact A|]. destruct (write_msg g s); try exact A. contradiction.
  - unfold send_plain. destruct (negb (d_kill s)); [exact A|]. destruct (write_msg g s); try exact A. contradiction.
  - unfold poll_helper. destruct (negb (d_polled s)); [exact A|]. destruct (0 <? st s)%N, f, (negb (h_alive s)); exact A.
  - destruct (turn_frame g f n t s) as (_ & _ & B & _). rewrite B. exact A.
  - exact A.
  - contradiction.
  - exact A.
Qed.

(* of two kills handed over just before the daemon ends the second is lost *)
Theorem C82_lost_at_end_refuted :
  let s := after g0 [EKill c1 (Some 9); EKill c2 (Some 9); EDaemonDies; ETurn true 0 1] in
  acc s = [(1%N, HKill 100 9); (2%N, HKill 200 9)] /\ done s = [(1%N, HKill 100 9)] /\ h_alive s = false.
Proof. repeat split; reflexivity. Qed.

(* a program whose fork fails is never started, and the client is marked as served *)
Theorem C82_fork_failure_refuted :
  let s := after g0 [EKill c1 None; ETurn false 0 1; EKill c1 None; ETurn true 0 2] in
  done s = [] /\ q s = [] /\ d_ran s 1%N = true.
Proof. repeat split; reflexivity. Qed.

(* the end of the helper is noticed by the poll; if a write notices it first, nobody waits
   for the process and helper_pid keeps naming it *)
Theorem C82_never_waited_for :
  d_pid (after g0 [EHelperDies; EPoll false 5]) = false /\
  forall l, d_pid (hrun g0 (after g0 [EHelperDies; EKill c1 (Some 15)]) l) = true.
Proof.
  split; [reflexivity|]. intros l.
  assert (G : forall l s, d_polled s = false -> d_kill s = false -> d_pid s = true -> d_pid (hrun g0 s l) = true).
  { clear l. induction l as [|e l IH]; intros s P K D; [exact D|]. cbn [hrun fold_left].
    destruct (C82_no_fallback g0 [e] s K) as [K' _]. cbn [hrun fold_left] in K'.
    apply IH; [| exact K'|].
    - destruct e as [c sig|force pid rk rt path args|path val|f now|f n t| | |c]; cbn [hstep].
      + destruct (negb (d_alive s)); [exact P|]. unfold send_helper_kill. destruct (match sig with None => d_ran s (hc_id c) | Some _ => false end); [exact P|]. rewrite K. exact P.
      + destruct (negb (d_alive s)); [exact P|]. unfold send_plain. rewrite K. exact P.
      + destruct (negb (d_alive s)); [exact P|]. unfold send_plain. rewrite K. exact P.
      + destruct (negb (d_alive s)); [exact P|]. unfold poll_helper. rewrite P. exact P.
      + destruct (turn_frame g0 f n t s) as (_ & _ & _ & _ & _ & _ & X). rewrite X. exact P.
      + exact P.
      + destruct (negb (d_alive s)); exact P.
      + destruct (negb (d_alive s)); exact P.
    - destruct e as [c sig|force pid rk rt path args|path val|f now|f n t| | |c]; cbn [hstep].
      + destruct (negb (d_alive s)); [exact D|]. unfold send_helper_kill. destruct (match sig with None => d_ran s (hc_id c) | Some _ => false end); [exact D|]. rewrite K. exact D.
      + destruct (negb (d_alive s)); [exact D|]. unfold send_plain. rewrite K. exact D.
      + destruct (negb (d_alive s)); [exact D|]. unfold send_plain. rewrite K. exact D.
      + destruct (negb (d_alive s)); [exact D|]. unfold poll_helper. rewrite P. exact D.
      + destruct (h_alive s) eqn:HA; [|unfold helper_turn; rewrite HA; exact D].
        rewrite (turn_shape _ _ _ _ _ HA). cbv zeta.
        assert (E : d_pid (if (30 <=? t - h_good s) && (2 <=? t - h_send s) then send_status g0 t (set_iter t s) else set_iter t s) = true).
        { destruct ((30 <=? t - h_good s) && (2 <=? t - h_send s)); [|exact D]. unfold send_status.
          destruct (negb (status_open (set_iter t s))); [destruct (c_ign g0); exact D|]. destruct (st (set_iter t s) <? STATUS_CAP)%N; exact D. }
        set (s1 := if (30 <=? t - h_good s) && (2 <=? t - h_send s) then send_status g0 t (set_iter t s) else set_iter t s) in *.
        destruct (negb (h_alive s1)); [exact E|]. unfold perform.
        destruct (negb (writer_open s)), (q s1); exact E.
      + exact D.
      + destruct (negb (d_alive s)); exact D.
      + destruct (negb (d_alive s)); exact D. }
  apply G; reflexivity.
Qed.

Theorem C82_refuted : ~ C82_statement.
Proof.
  intros H. assert (C : 0 <= c_ci g0) by (vm_compute; discriminate).
  destruct (H g0 0 [EHelperDies; EPoll false 5] C) as (_ & _ & _ & X & _).
  destruct (X eq_refl eq_refl c1 9).
Qed.

Print Assumptions C82_in_order.
Print Assumptions C82_only_asked.
Print Assumptions C82_all_done_partial.
Print Assumptions C82_drained.
Print Assumptions C82_program_once.
Print Assumptions C82_memory_partial.
Print Assumptions C82_no_fallback.
Print Assumptions C82_silence_ignored.
Print Assumptions C82_helper_ends.
Print Assumptions C82_heartbeat.
Print Assumptions C82_report_after_59_seconds.
Print Assumptions C82_loss_noticed.
Print Assumptions C82_double_close.
Print Assumptions C82_double_close_refuted.
Print Assumptions C82_sigpipe_refuted.
Print Assumptions C82_daemon_stays_partial.
Print Assumptions C82_lost_at_end_refuted.
Print Assumptions C82_fork_failure_refuted.
Print Assumptions C82_never_waited_for.
Print Assumptions C82_refuted.
