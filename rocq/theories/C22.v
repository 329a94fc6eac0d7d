(* C22: wdmd cleanly disarms the watchdog only when no client is active: not on
   SIGTERM, not when a client connection dies with an expiry set, not when some
   other client goes away.

   An active client is one that holds the refcount (the comments at 1559-1562 and
   watchdog.c "the refcount tells wdmd that it should not cleanly exit"). *)
From Coq Require Import List ZArith Lia Bool Arith ZifyBool.
From Verif Require Import Wdmd.
Import ListNotations.
Open Scope Z_scope.

Definition active (c : wcl) : Prop := w_used c = true /\ w_ref c = true.

Lemma active_usage_false l c : active_usage l = false -> In c l -> ~ active c.
Proof.
  intros H Hc [U R]. assert (active_usage l = true); [|congruence].
  apply existsb_exists. exists c. rewrite U, R. auto.
Qed.

(* Whatever happens, when the device is disarmed by a step that found it open, no
   client is active. *)
Theorem C22_disarm_only_unused s t x s' o td :
  wreach s -> wstep s t x = Some (s', o) -> In (ODisarm td) o ->
  w_open s = true ->
  forall c, In c (w_cl s) -> ~ active c.
Proof.
  intros _ H Ho Op c Hc. unfold wstep in H.
  destruct (w_done s || (t <? w_now s)); [discriminate|].
  destruct x as [|i b|i e|f r|i| |t0 tc tp bad re]; cbn -[open_watchdog tail] in H.
  - injection H as <- <-. inversion Ho.
  - destruct (get (at_time s t) i); [|discriminate]. injection H as <- <-. inversion Ho.
  - destruct (get (at_time s t) i); [|discriminate]. injection H as <- <-. inversion Ho.
  - injection H as H. unfold open_watchdog in H. cbn in H. rewrite Op in H. cbn in H.
    destruct (w_enable s); [injection H as <- <-; inversion Ho|].
    destruct (f =? 0); injection H as <- <-; inversion Ho.
  - destruct (get (at_time s t) i); [|discriminate]. injection H as <- <-. inversion Ho.
  - injection H as <- <-. inversion Ho.
  - destruct ((t <=? t0) && (t0 <=? tc) && (tc <=? tp)); [|discriminate]. injection H as H.
    unfold tail in H. cbn in H.
    destruct (w_quit s && negb (active_usage (w_cl s))) eqn:E1.
    { apply andb_true_iff in E1 as [_ E1]. apply negb_true_iff in E1.
      eapply active_usage_false; eauto. }
    destruct (w_enable s); cbn in H; [|injection H as <- <-; inversion Ho].
    destruct (negb (active_usage (w_cl s)) && negb (external_usage (w_cl s)) && negb (w_reset s)) eqn:E2.
    { rewrite !andb_true_iff, !negb_true_iff in E2. destruct E2 as [[E2 _] _].
      eapply active_usage_false; eauto. }
    rewrite Op in H; cbn in H.
    repeat match type of H with (if ?b then _ else _) = _ => destruct b end;
      injection H as <- <-; cbn in Ho; intuition discriminate.
Qed.

(* The only other place that disarms is _open_watchdog when the timeout cannot be
   set: the device was closed and the loop disabled, and is so again. *)
Theorem C22_disarm_other s t x s' o td :
  wreach s -> wstep s t x = Some (s', o) -> In (ODisarm td) o ->
  w_open s = false ->
  w_enable s = false /\ o = [OPing t; ODisarm t] /\ exists f, x = WOpen f OpBad.
Proof.
  intros _ H Ho Op. unfold wstep in H.
  destruct (w_done s || (t <? w_now s)); [discriminate|].
  destruct x as [|i b|i e|f r|i| |t0 tc tp bad re]; cbn -[open_watchdog tail] in H.
  - injection H as <- <-. inversion Ho.
  - destruct (get (at_time s t) i); [|discriminate]. injection H as <- <-. inversion Ho.
  - destruct (get (at_time s t) i); [|discriminate]. injection H as <- <-. inversion Ho.
  - injection H as H. unfold open_watchdog in H. cbn in H. rewrite Op in H. cbn in H.
    destruct (w_enable s); [injection H as <- <-; inversion Ho|].
    destruct (f =? 0); [injection H as <- <-; inversion Ho|].
    destruct r; injection H as <- <-; cbn in Ho.
    + inversion Ho.
    + split; [reflexivity|]. split; [reflexivity|]. exists f. reflexivity.
    + intuition discriminate.
  - destruct (get (at_time s t) i); [|discriminate]. injection H as <- <-. inversion Ho.
  - injection H as <- <-. inversion Ho.
  - destruct ((t <=? t0) && (t0 <=? tc) && (tc <=? tp)); [|discriminate]. injection H as H.
    unfold tail, disarm in H. cbn in H. rewrite Op in H. cbn in H.
    repeat match type of H with (if ?b then _ else _) = _ => destruct b end;
      injection H as <- <-; cbn in Ho; try (now inversion Ho);
      destruct re; cbn in Ho; intuition discriminate.
Qed.

(* Client i neither clears its refcount nor its expiry.  It may do anything else,
   and its connection may die. *)
Definition keeps (i : nat) (x : win) : Prop :=
  match x with
  | WRef j b => j = i -> b = true
  | WLive j e => j = i -> e <> 0
  | _ => True
  end.

Definition guarded (s : wst) (i : nat) : Prop :=
  exists c, nth_error (w_cl s) i = Some c /\ active c /\ w_exp c <> 0 /\ w_int c = false.

Lemma guarded_active s i : guarded s i -> active_usage (w_cl s) = true.
Proof.
  intros (c & Hc & [U R] & _). apply existsb_exists. exists c.
  split; [eapply nth_error_In; eauto|]. rewrite U, R. reflexivity.
Qed.

Lemma guarded_step s t x s' o i :
  guarded s i -> keeps i x -> wstep s t x = Some (s', o) -> guarded s' i.
Proof.
  intros (c & Hc & [U R] & E & I) K H. unfold wstep in H.
  destruct (w_done s || (t <? w_now s)); [discriminate|].
  destruct x as [|j b|j e|f r|j| |t0 tc tp bad re]; cbn -[open_watchdog tail] in H.
  - injection H as <- <-. exists c. cbn. split; [|repeat split; auto].
    apply client_add_nth; auto.
  - destruct (get (at_time s t) j) as [d|] eqn:G; [|discriminate]. injection H as <- <-.
    apply get_nth in G as (G & _). cbn in G.
    destruct (Nat.eq_dec j i) as [->|N].
    + assert (d = c) by congruence. subst d. cbn in K. rewrite (K eq_refl).
      eexists. cbn. rewrite (nth_upd_same _ _ _ _ Hc). split; [reflexivity|]. cbn.
      repeat split; auto.
    + exists c. cbn. rewrite nth_upd_other by auto. repeat split; auto.
  - destruct (get (at_time s t) j) as [d|] eqn:G; [|discriminate]. injection H as <- <-.
    apply get_nth in G as (G & _). cbn in G.
    destruct (Nat.eq_dec j i) as [->|N].
    + assert (d = c) by congruence. subst d.
      eexists. cbn. rewrite (nth_upd_same _ _ _ _ Hc). split; [reflexivity|]. cbn.
      repeat split; auto.
    + exists c. cbn. rewrite nth_upd_other by auto. repeat split; auto.
  - injection H as H. exists c.
    replace s' with (fst (open_watchdog (at_time s t) t f r)) by (rewrite H; reflexivity).
    rewrite open_cl. cbn. repeat split; auto.
  - destruct (get (at_time s t) j) as [d|] eqn:G; [|discriminate]. injection H as <- <-.
    apply get_nth in G as (G & _). cbn in G.
    destruct (Nat.eq_dec j i) as [->|N].
    + assert (d = c) by congruence. subst d.
      eexists. cbn. rewrite (nth_upd_same _ _ _ _ Hc). split; [reflexivity|].
      unfold pid_dead. replace (w_exp c =? 0) with false by lia. cbn. repeat split; auto.
    + exists c. cbn. rewrite nth_upd_other by auto. repeat split; auto.
  - injection H as <- <-. exists c. cbn. repeat split; auto.
  - destruct ((t <=? t0) && (t0 <=? tc) && (tc <=? tp)); [|discriminate]. injection H as H.
    exists c.
    replace s' with (fst (tail (at_time s t) t0 tc tp bad re)) by (rewrite H; reflexivity).
    rewrite tail_cl. cbn. repeat split; auto.
Qed.

Lemma guarded_enable s t x s' o i :
  guarded s i -> w_enable s = true -> wstep s t x = Some (s', o) ->
  w_enable s' = true /\ w_done s' = false /\ (forall td, ~ In (ODisarm td) o) /\
  (k_armed s = true -> k_armed s' = true).
Proof.
  intros Gd En H. pose proof (guarded_active _ _ Gd) as A. unfold wstep in H.
  destruct (w_done s) eqn:D; [discriminate|]. destruct (t <? w_now s); [discriminate|].
  destruct x as [|j b|j e|f r|j| |t0 tc tp bad re]; cbn -[open_watchdog tail] in H.
  1,6: injection H as <- <-; cbn; repeat split; auto; intros td [].
  1,2,4: destruct (get (at_time s t) j); [|discriminate]; injection H as <- <-; cbn;
    repeat split; auto; intros td [].
  - injection H as H. unfold open_watchdog in H. cbn in H. rewrite En in H.
    injection H as <- <-. cbn. repeat split; auto; intros td [].
  - destruct ((t <=? t0) && (t0 <=? tc) && (tc <=? tp)); [|discriminate]. injection H as H.
    unfold tail in H. cbn in H. rewrite A, En in H. cbn in H. rewrite andb_false_r in H.
    cbn in H.
    repeat match type of H with (if ?b then _ else _) = _ => destruct b end;
      injection H as <- <-; cbn; repeat split; auto.
    + intros td. destruct (w_open s); cbn; intuition discriminate.
    + intros td. destruct (w_open s || re); cbn; intuition discriminate.
    + destruct (w_open s || re); auto.
Qed.

(* While one client keeps its refcount and its expiry, nothing that the other clients
   do, no signal, no failing test, and not even the death of its own connection, ends
   the daemon, disables the loop or disarms the device. *)
Theorem C22_active_client_blocks l : forall s i s' o,
  guarded s i -> w_enable s = true -> w_done s = false ->
  (forall t x, In (t, x) l -> keeps i x) ->
  wrun s l = Some (s', o) ->
  guarded s' i /\ w_enable s' = true /\ w_done s' = false /\
  (forall td, ~ In (ODisarm td) o) /\ (k_armed s = true -> k_armed s' = true).
Proof.
  induction l as [|[t x] r IH]; intros s i s' o Gd En D K H.
  - injection H as <- <-. split; [auto|]. split; [auto|]. split; [auto|].
    split; [intros td []|auto].
  - cbn in H. destruct (wstep s t x) as [[s1 o1]|] eqn:E; [|discriminate].
    destruct (wrun s1 r) as [[s2 o2]|] eqn:E2; [|discriminate]. injection H as <- <-.
    pose proof (guarded_step _ _ _ _ _ _ Gd (K t x (or_introl eq_refl)) E) as Gd1.
    destruct (guarded_enable _ _ _ _ _ _ Gd En E) as (En1 & D1 & N1 & A1).
    destruct (IH _ _ _ _ Gd1 En1 D1 (fun t' x' Hx => K t' x' (or_intror Hx)) E2)
      as (G2 & E2' & D2 & N2 & A2).
    split; [auto|]. split; [auto|]. split; [auto|]. split; [|auto].
    intros td Hd. apply in_app_or in Hd as [Hd|Hd]; [eapply N1|eapply N2]; eauto.
Qed.

(* A connection that dies with an expiry set: nobody can remove the entry any more. *)
Theorem C22_dead_connection_is_forever l : forall s i c s' o,
  nth_error (w_cl s) i = Some c -> active c -> w_exp c <> 0 -> w_con c = false -> w_int c = false ->
  w_enable s = true -> w_done s = false ->
  wrun s l = Some (s', o) ->
  nth_error (w_cl s') i = Some c /\ w_enable s' = true /\ w_done s' = false /\
  (forall td, ~ In (ODisarm td) o).
Proof.
  induction l as [|[t x] r IH]; intros s i c s' o Hc A E C Ii En D H.
  - injection H as <- <-. split; [auto|]. split; [auto|]. split; [auto|]. intros td [].
  - cbn in H. destruct (wstep s t x) as [[s1 o1]|] eqn:ES; [|discriminate].
    destruct (wrun s1 r) as [[s2 o2]|] eqn:E2; [|discriminate]. injection H as <- <-.
    assert (Gd : guarded s i) by (exists c; auto).
    destruct (guarded_enable _ _ _ _ _ _ Gd En ES) as (En1 & D1 & N1 & _).
    assert (Hc1 : nth_error (w_cl s1) i = Some c).
    { unfold wstep in ES.
      destruct (w_done s || (t <? w_now s)); [discriminate|].
      destruct x as [|j b|j e|f rr|j| |t0 tc tp bad re]; cbn -[open_watchdog tail] in ES.
      - injection ES as <- <-. cbn. apply client_add_nth; [auto|apply A].
      - destruct (get (at_time s t) j) as [d|] eqn:G; [|discriminate]. injection ES as <- <-.
        apply get_nth in G as (G & _ & G2 & _). cbn in *. rewrite nth_upd_other; auto.
        intros ->. congruence.
      - destruct (get (at_time s t) j) as [d|] eqn:G; [|discriminate]. injection ES as <- <-.
        apply get_nth in G as (G & _ & G2 & _). cbn in *. rewrite nth_upd_other; auto.
        intros ->. congruence.
      - injection ES as ES.
        replace s1 with (fst (open_watchdog (at_time s t) t f rr)) by (rewrite ES; reflexivity).
        rewrite open_cl. auto.
      - destruct (get (at_time s t) j) as [d|] eqn:G; [|discriminate]. injection ES as <- <-.
        apply get_nth in G as (G & _ & G2 & _). cbn in *. rewrite nth_upd_other; auto.
        intros ->. congruence.
      - injection ES as <- <-. auto.
      - destruct ((t <=? t0) && (t0 <=? tc) && (tc <=? tp)); [|discriminate]. injection ES as ES.
        replace s1 with (fst (tail (at_time s t) t0 tc tp bad re)) by (rewrite ES; reflexivity).
        rewrite tail_cl. auto. }
    destruct (IH _ _ _ _ _ Hc1 A E C Ii En1 D1 E2) as (P1 & P2 & P3 & P4).
    split; [auto|]. split; [auto|]. split; [auto|].
    intros td Hd. apply in_app_or in Hd as [Hd|Hd]; [eapply N1|eapply P4]; eauto.
Qed.

(* a connection that has opened the watchdog keeps the loop enabled, so a lockspace
   that registers later finds it armed *)
Theorem C22_connection_keeps_enabled s t x s' o i c :
  nth_error (w_cl s) i = Some c -> w_used c = true -> w_int c = false ->
  w_enable s = true -> wstep s t x = Some (s', o) -> w_enable s' = true.
Proof.
  intros Hc U I En H. unfold wstep in H.
  destruct (w_done s || (t <? w_now s)); [discriminate|].
  destruct x as [|j b|j e|f r|j| |t0 tc tp bad re]; cbn -[open_watchdog tail] in H.
  1,6: injection H as <- <-; auto.
  1,2,4: destruct (get (at_time s t) j); [|discriminate]; injection H as <- <-; auto.
  - injection H as H. unfold open_watchdog in H. cbn in H. rewrite En in H.
    injection H as <- <-. auto.
  - destruct ((t <=? t0) && (t0 <=? tc) && (tc <=? tp)); [|discriminate]. injection H as H.
    assert (X : external_usage (w_cl s) = true).
    { apply existsb_exists. exists c. split; [eapply nth_error_In; eauto|]. rewrite U, I. auto. }
    unfold tail in H. cbn in H. rewrite X, En in H. rewrite !andb_false_r in H. cbn in H.
    repeat match type of H with (if ?b then _ else _) = _ => destruct b end;
      injection H as <- <-; auto.
Qed.

(* ------------------------------------------------------- concrete runs *)

Definition obs (r : option (wst * list wout)) : option (list wout * bool * bool) :=
  match r with Some (s, o) => Some (o, w_enable s, w_done s) | None => None end.

(* a lockspace is activated, another client comes and goes, SIGTERM, the connection
   of the lockspace dies: no disarm; the close ping is at 100 *)
Definition busy : list (Z * win) :=
  [(20, WConn); (20, WOpen 60 OpOk); (20, WTail 20 20 20 false true);
   (30, WRef 2 true); (30, WLive 2 110); (30, WTail 30 30 30 false true);
   (35, WConn); (36, WDead 3); (36, WTail 36 36 36 false true);
   (40, WSig); (40, WTail 40 40 40 false true);
   (50, WDead 2); (50, WTail 50 50 50 false true);
   (60, WTail 60 60 60 false true);
   (70, WSig); (70, WTail 70 70 70 false true);
   (80, WTail 80 80 80 false true);
   (90, WTail 90 90 90 false true); (100, WTail 100 100 100 false true);
   (101, WTail 101 101 101 false true)].

Example C22_nonvacuous :
  obs (wrun winit busy) =
  Some ([OPing 20; OPing 20; OPing 30; OPing 40; OPing 50; OPing 60; OPing 70; OPing 80;
         OPing 90; OPing 100], true, false).
Proof. vm_compute. reflexivity. Qed.

(* the last client leaves: disarmed *)
Example C22_nonvacuous_idle :
  obs (wrun winit
    [(20, WConn); (20, WOpen 60 OpOk); (20, WTail 20 20 20 false true);
     (30, WRef 2 true); (30, WLive 2 110); (40, WTail 40 40 40 false true);
     (45, WLive 2 0); (45, WRef 2 false); (45, WTail 45 45 45 false true);
     (46, WDead 2); (46, WTail 46 46 46 false true)]) =
  Some ([OPing 20; OPing 20; OPing 40; ODisarm 46], false, false).
Proof. vm_compute. reflexivity. Qed.

(* an expiry without refcount does not count as active: SIGTERM ends the daemon and
   disarms the device with the expiry at 110 still registered *)
Theorem C22_refcount_needed :
  obs (wrun winit
    [(20, WConn); (20, WOpen 60 OpOk); (20, WTail 20 20 20 false true);
     (30, WLive 2 110); (40, WSig); (40, WTail 40 40 40 false true)]) =
  Some ([OPing 20; OPing 20; ODisarm 40], true, true).
Proof. vm_compute. reflexivity. Qed.

Print Assumptions C22_disarm_only_unused.
Print Assumptions C22_disarm_other.
Print Assumptions C22_active_client_blocks.
Print Assumptions C22_dead_connection_is_forever.
Print Assumptions C22_connection_keeps_enabled.
