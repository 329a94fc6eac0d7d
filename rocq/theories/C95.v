(* C95: the resource thread sends every host event once and in order, none is left when it
   sleeps or ends; a lease that is being released has one releaser, is kept until an attempt
   that did not time out and is not acquired before; an attempt is not repeated before its time.

   The specification speaks of a history of requests (op), of what the thread did
   (s_log: DSent, DTried, DDone, DExam) and of the four lists. *)
From Coq Require Import List Arith Lia Bool.
From Verif Require Import ResThread ResThreadProof.
Import ListNotations.

(* ---- events: sent once, in order, none lost, none made up ---- *)
Theorem C95_events : forall os, let s := run init os in
  exists rest, events os = sent (s_log s) ++ rest /\ (s_work s = false -> rest = in_flight (s_ph s)).
Proof.
  intros os s. exists (in_flight (s_ph s) ++ s_ev s). pose proof (queue_run os init) as H. cbn in H.
  split; [symmetry; exact H|]. intros Hw. destruct (awake_run os init awake_init) as [Ha _]. fold s in Ha.
  destruct (s_ev s) as [|e q]; [apply app_nil_r|]. rewrite Ha in Hw by discriminate. discriminate.
Qed.
Print Assumptions C95_events.

(* ---- a resource is on one list, at one place, and has one releaser ---- *)
Theorem C95_one_list : forall os, let s := run init os in
  NoDup (map r_id (s_rem s) ++ map h_id (s_held s) ++ map h_id (s_orphan s)) /\
  (forall id, s_ph s = Releasing id <-> exists r, In r (s_rem s) /\ r_id r = id /\ r_by r = ByThread).
Proof.
  intros os s. assert (H : one_list s) by apply one_list_run, one_list_init.
  assert (Hh : hands s) by (apply hands_run; [apply one_list_init|apply hands_init]). split.
  - destruct H as (A & B & C & D & E & F). unfold rem_ids, held_ids, orphan_ids in *.
    assert (N : forall (a b : list nat), NoDup a -> NoDup b -> (forall x, In x a -> ~ In x b) -> NoDup (a ++ b)).
    { induction a as [|x a IH]; intros b Ha Hb Hx; cbn; auto. inversion Ha; subst. constructor.
      - intros Hi. apply in_app_or in Hi as [Hi | Hi]; auto. apply (Hx x); auto. left; auto.
      - apply IH; auto. intros y Hy. apply Hx. right; auto. }
    apply N; auto. intros x Hx Hy. apply in_app_or in Hy as [Hy | Hy]; [apply (D x)|apply (E x)]; auto.
  - destruct Hh as [H1 H2]. intros id. split; [apply H1|]. intros (r & Hr & <- & Hb). apply H2; auto.
Qed.
Print Assumptions C95_one_list.

(* ---- a resource that is being released stays until an attempt that did not time out;
   until then nobody acquires it ---- *)
Theorem C95_kept : forall s o id, In id (map r_id (s_rem s)) -> ~ In id (map r_id (s_rem (step s o))) ->
  (s_ph s = Releasing id /\ o = OThread false) \/
  (o = OSyncEnd id false /\ exists r, In r (s_rem s) /\ r_id r = id /\ r_by r = Sync).
Proof.
  intros s o id Hi Hn. destruct o; cbn [step] in Hn.
  - contradiction.
  - contradiction.
  - exfalso. destruct (existsb _ _); apply Hn; exact Hi.
  - exfalso. destruct (busy s id0); apply Hn; exact Hi.
  - exfalso. destruct (existsb _ _ || _); [apply Hn; exact Hi|]. destruct (find _ _); apply Hn; exact Hi.
  - exfalso. destruct (find _ _); apply Hn; [right; exact Hi|exact Hi].
  - exfalso. apply Hn. exact Hi.
  - exfalso. destruct (find _ _); apply Hn; exact Hi.
  - exfalso. destruct (partition _ _) as [yes no]. destruct yes as [|y ys]; apply Hn; [exact Hi|].
    change (In id (map r_id (rev (map (fun h => mkRem (h_id h) Flagged 0 (h_io h)) (y :: ys)) ++ s_rem s))).
    rewrite map_app. apply in_or_app. right. exact Hi.
  - exfalso. destruct (find _ _); apply Hn; [right; exact Hi|exact Hi].
  - destruct (existsb _ _) eqn:Ex; [|contradiction]. destruct timeout; cbn in Hn.
    + exfalso. rewrite map_ids_set_by in Hn. contradiction.
    + right. apply in_map_iff in Hi as (r & <- & Hr). destruct (Nat.eq_dec (r_id r) id0) as [<- | n].
      * split; auto. apply existsb_exists in Ex as (q & Hq & Hq2). apply andb_true_iff in Hq2 as [Hq2 Hq3].
        apply Nat.eqb_eq in Hq2. exists q. repeat split; auto. destruct (r_by q); auto; discriminate.
      * exfalso. apply Hn. apply in_map. apply drop_rem_in. auto.
  - exfalso. destruct (match s_rem s with [] => true | _ => s_work s end); apply Hn; exact Hi.
  - contradiction.
  - unfold thread in Hn. destruct (s_ph s) eqn:Ep; try contradiction.
    + exfalso. unfold thread_top in Hn. destruct (negb (s_work s)); [destruct (s_stop s); contradiction|].
      destruct (s_ev s); [|contradiction]. destruct (find _ (s_rem s)); cbn in Hn; [rewrite map_ids_take in Hn; contradiction|].
      destruct (if s_workx s then _ else _); contradiction.
    + destruct timeout; cbn in Hn; [rewrite map_ids_set_by in Hn; contradiction|].
      apply in_map_iff in Hi as (r & <- & Hr). destruct (Nat.eq_dec (r_id r) id0) as [<- | n]; [left; auto|].
      exfalso. apply Hn. apply in_map. apply drop_rem_in. auto.
Qed.
Print Assumptions C95_kept.

Theorem C95_no_acquire : forall s id io, In id (map r_id (s_rem s)) ->
  step s (OAcquire id io) = s /\ step s (OAdopt id) = s.
Proof.
  intros s id io Hi. assert (E : existsb (is_rem id) (s_rem s) = true).
  { apply in_map_iff in Hi as (r & <- & Hr). apply existsb_exists. exists r. split; auto. apply Nat.eqb_refl. }
  cbn [step]. unfold busy. rewrite E. split; reflexivity.
Qed.
Print Assumptions C95_no_acquire.

(* an attempt is not repeated before its time *)
Theorem C95_pause : forall s t id, s_ph s = Top -> s_ph (step s (OThread t)) = Releasing id ->
  exists r, In r (s_rem s) /\ r_id r = id /\ r_by r = Flagged /\ r_retry r <= s_now s /\
  exists r', In r' (s_rem (step s (OThread t))) /\ r_id r' = id /\
    r_retry r' = s_now s + (if r_retry r =? 0 then r_io r else r_io r * 2).
Proof.
  intros s t id Hp H. cbn [step] in *. unfold thread in *. rewrite Hp in *. unfold thread_top in *.
  destruct (negb (s_work s)); [destruct (s_stop s); cbn in H; congruence|].
  destruct (s_ev s); [|discriminate]. destruct (find (due (s_now s)) (s_rem s)) as [r0|] eqn:Ef.
  - cbn in H. injection H as <-. apply find_some in Ef as [Hi Hd]. unfold due, flagged in Hd. apply andb_true_iff in Hd as [Hf Hl].
    apply Nat.leb_le in Hl. exists r0. repeat split; auto; [destruct (r_by r0); congruence|].
    exists (mkRem (r_id r0) ByThread (if r_retry r0 =? 0 then s_now s + r_io r0 else s_now s + r_io r0 * 2) (r_io r0)).
    cbn. repeat split; [|destruct (r_retry r0 =? 0); lia].
    unfold take. apply in_map_iff. exists r0. split; auto. unfold is_rem. rewrite Nat.eqb_refl. reflexivity.
  - destruct (if s_workx s then _ else _); cbn in H; congruence.
Qed.
Print Assumptions C95_pause.

(* the thread ends only when it was told to and all events are sent *)
Theorem C95_exit : forall os t, let s := run init os in
  s_ph s <> Exited -> s_ph (step s (OThread t)) = Exited ->
  s_stop s = true /\ sent (s_log s) = events os.
Proof.
  intros os t s Hx He. cbn [step] in He. unfold thread in He. destruct (s_ph s) eqn:Ep; try discriminate He; try contradiction; [|destruct t; discriminate He].
  unfold thread_top in He. destruct (s_work s) eqn:Ew.
  - cbn [negb] in He. destruct (s_ev s); [|discriminate He]. destruct (find _ (s_rem s)); [discriminate He|].
    destruct (if s_workx s then _ else _); cbn in He; congruence.
  - cbn [negb] in He. destruct (s_stop s); [|congruence]. split; auto.
    destruct (C95_events os) as (rest & H1 & H2). fold s in H1, H2. rewrite Ep in H2. rewrite H1, (H2 Ew). cbn. rewrite app_nil_r. reflexivity.
Qed.
Print Assumptions C95_exit.

Example C95_nonvacuous :
  let s := run init [OTick; OAcquire 1 10; OAcquire 2 10; OEvent 7; OEvent 8; OAsync 1; OSync 2; OThread false; OThread false] in
  s_log s = [DSent 7] /\ s_ev s = [8] /\ map r_id (s_rem s) = [2; 1] /\
  s_log (run s [OThread false; OThread false; OThread false; OSyncEnd 2 true]) = [DSent 7; DSent 8; DTried 1] /\
  s_rem (run s [OThread false; OThread false; OThread false; OSyncEnd 2 true]) = [mkRem 2 Flagged 0 10; mkRem 1 ByThread 11 10] /\
  s_ph (run s [OThread false; OThread false; OThread false; OThread true; OStop; OThread false; OThread false]) = Exited.
Proof. vm_compute. repeat split; reflexivity. Qed.
