(* One machine: a lockspace thread of sanlock, the processes that hold leases in the
   lockspace, wdmd (Wdmd.v) and the hardware watchdog.

   src/lockspace.c:868-1013 (join, activate_watchdog, renewal loop, update_watchdog),
   src/watchdog.c:60-174, src/main.c:836-880 (deactivate_watchdog after
   all_pids_dead), src/cmd.c:191-572 (a lease is only acquired in a lockspace that was
   added, which is after activate_watchdog).

   Times are on the clock of this machine.  Simplifications: the join and the renewals
   are alike: a timestamp is taken (delta_lease.c: new_ts = monotime()), the write of
   the record with this timestamp lands at some later moment, and after that the
   watchdog is updated.  A write that is answered with an error may still land.  The
   lockspace thread does not start a write while another one is in flight. *)
From Coq Require Import List ZArith Lia Bool Arith ZifyBool.
From Verif Require Import Wdmd WdmdTime C22.
Import ListNotations.
Open Scope Z_scope.

Record hcfg := mkHcfg {
  g_io : Z;          (* sp->io_timeout *)
  g_fire : Z;        (* com.watchdog_fire_timeout *)
  g_me : nat }.      (* the connection of the lockspace to wdmd: wd_con *)

Record hst := mkHst {
  h_now : Z;
  h_w : wst;
  h_disk : Z;               (* timestamp in the delta lease on disk *)
  h_pend : option Z;        (* timestamp of the write in flight *)
  h_ok : option Z;          (* last_success *)
  h_act : bool;             (* after activate_watchdog, before deactivate_watchdog *)
  h_pids : nat }.           (* processes that hold leases *)

Inductive hev :=
| HW (x : win)              (* wdmd does something else *)
| HBegin | HLand
| HAct                      (* activate_watchdog *)
| HUpd                      (* update_watchdog *)
| HPid | HUnpid
| HStop                     (* all_pids_dead, deactivate_watchdog *)
| HTick.

Definition foreign (me : nat) (x : win) : bool :=
  match x with
  | WRef j _ | WLive j _ => negb (Nat.eqb j me)
  | _ => true
  end.

Definition with_w (s : hst) (w : wst) (act : bool) : hst :=
  mkHst (h_now s) w (h_disk s) (h_pend s) (h_ok s) act (h_pids s).

(* id_renewal_fail_seconds = 8 * io_timeout, timeouts.c:58-82 *)
Definition expiry (g : hcfg) (ts : Z) : Z := ts + 8 * g_io g.

Definition wtime (t : Z) (x : win) : Z :=
  match x with WTail _ _ tp _ _ => tp | _ => t end.

Definition hstep (g : hcfg) (s0 : hst) (t : Z) (e : hev) : option hst :=
  if t <? h_now s0 then None else
  let s := mkHst t (h_w s0) (h_disk s0) (h_pend s0) (h_ok s0) (h_act s0) (h_pids s0) in
  match e with
  | HTick => Some s
  | HW x =>
      if foreign (g_me g) x then
        match wstep (h_w s) t x with
        | Some (w, _) => Some (mkHst (wtime t x) w (h_disk s) (h_pend s) (h_ok s) (h_act s) (h_pids s))
        | None => None
        end
      else None
  | HBegin =>
      match h_pend s with
      | None => Some (mkHst t (h_w s) (h_disk s) (Some t) (h_ok s) (h_act s) (h_pids s))
      | Some _ => None
      end
  | HLand =>
      match h_pend s with
      | Some x => Some (mkHst t (h_w s) x None (Some x) (h_act s) (h_pids s))
      | None => None
      end
  | HAct =>
      match h_ok s with
      | Some x =>
          if h_act s then None
          (* wdmd_register, wdmd_refcount_set, wdmd_status, wdmd_test_live *)
          else if negb (w_fire (h_w s) =? g_fire g) then None
          else match wstep (h_w s) t (WRef (g_me g) true) with
          | Some (w1, _) =>
              match wstep w1 t (WLive (g_me g) (expiry g x)) with
              | Some (w2, _) => Some (with_w s w2 true)
              | None => None
              end
          | None => None
          end
      | None => None
      end
  | HUpd =>
      match h_ok s with
      | Some x =>
          if h_act s then
            match wstep (h_w s) t (WLive (g_me g) (expiry g x)) with
            | Some (w, _) => Some (with_w s w true)
            | None => None
            end
          else None
      | None => None
      end
  | HPid =>
      if h_act s then Some (mkHst t (h_w s) (h_disk s) (h_pend s) (h_ok s) true (S (h_pids s)))
      else None
  | HUnpid =>
      match h_pids s with
      | S n => Some (mkHst t (h_w s) (h_disk s) (h_pend s) (h_ok s) (h_act s) n)
      | O => None
      end
  | HStop =>
      match h_pids s, h_act s with
      | O, true =>
          match wstep (h_w s) t (WLive (g_me g) 0) with
          | Some (w1, _) =>
              match wstep w1 t (WRef (g_me g) false) with
              | Some (w2, _) => Some (with_w s w2 false)
              | None => None
              end
          | None => None
          end
      | _, _ => None
      end
  end.

Definition hinit : hst := mkHst 0 winit 0 None None false 0.

(* Assumptions: the other clients of wdmd are well behaved and wdmd is paced
   (WdmdTime.v); the watchdog was opened on the connection (lockspace.c:855) and the
   activation does not come later than one test interval before the expiry. *)
Definition hok (g : hcfg) (sl : Z) (s : hst) (t : Z) (e : hev) : Prop :=
  match e with
  | HW x => live_ok (h_w s) t x /\ paced sl (h_w s) x
  | HAct =>
      match h_ok s with
      | Some x => w_enable (h_w s) = true /\ t + 10 < expiry g x
      | None => True
      end
  | _ => True
  end.

Inductive hreach (g : hcfg) (sl : Z) : hst -> hst -> Prop :=
| hr_refl s : hreach g sl s s
| hr_step s1 s t e s' :
    hreach g sl s1 s -> t < 2 ^ 63 -> hok g sl s t e -> hstep g s t e = Some s' -> hreach g sl s1 s'.

Record hinv (g : hcfg) (sl : Z) (s : hst) : Prop := mkHinv {
  H_w : tinv sl (h_w s);
  H_std : w_std (h_w s) <= 10;
  H_time : w_now (h_w s) <= h_now s;
  H_pos : 0 <= h_disk s;
  H_disk : h_disk s <= h_now s;
  H_pend : forall x, h_pend s = Some x -> h_disk s <= x <= h_now s;
  H_ok : forall x, h_ok s = Some x -> x = h_disk s;
  H_lt : h_disk s < 2 ^ 63;
  H_act : h_act s = true ->
    w_enable (h_w s) = true /\ w_done (h_w s) = false /\ w_fire (h_w s) = g_fire g /\
    exists c, nth_error (w_cl (h_w s)) (g_me g) = Some c /\ active c /\ w_exp c <> 0 /\
              w_int c = false /\ w_exp c <= expiry g (h_disk s);
  H_pids : h_pids s <> O -> h_act s = true }.

Lemma wstep_now s t x s' o : wstep s t x = Some (s', o) -> w_now s' <= wtime t x /\ t <= wtime t x.
Proof.
  unfold wstep. destruct (w_done s || (t <? w_now s)); [discriminate|].
  destruct x as [|i b|i e|f r|i| |t0 tc tp bad re]; cbn -[open_watchdog tail]; intros H.
  1,6: injection H as <- <-; cbn; lia.
  1,2,4: destruct (get (at_time s t) i); [|discriminate]; injection H as <- <-; cbn; lia.
  - injection H as H. unfold open_watchdog in H. cbn in H.
    repeat match type of H with (if ?b then _ else _) = _ => destruct b end;
      try (injection H as <- <-; cbn; lia).
    destruct r; injection H as <- <-; cbn; lia.
  - destruct ((t <=? t0) && (t0 <=? tc) && (tc <=? tp)) eqn:E; [|discriminate]. injection H as H.
    unfold tail in H. cbn in H.
    repeat match type of H with (if ?b then _ else _) = _ => destruct b end;
      injection H as <- <-; cbn; lia.
Qed.

Lemma wstep_std s t x s' o : w_std s <= 10 -> wstep s t x = Some (s', o) -> w_std s' <= 10.
Proof.
  intros S. unfold wstep. destruct (w_done s || (t <? w_now s)); [discriminate|].
  destruct x as [|i b|i e|f r|i| |t0 tc tp bad re]; cbn -[open_watchdog tail]; intros H.
  1,6: injection H as <- <-; cbn; lia.
  1,2,4: destruct (get (at_time s t) i); [|discriminate]; injection H as <- <-; cbn; lia.
  - injection H as H. unfold open_watchdog in H. cbn in H. pose proof (init_interval_pos f).
    repeat match type of H with (if ?b then _ else _) = _ => destruct b end;
      try (injection H as <- <-; cbn; lia).
    destruct r; injection H as <- <-; cbn; lia.
  - destruct ((t <=? t0) && (t0 <=? tc) && (tc <=? tp)) eqn:E; [|discriminate]. injection H as H.
    unfold tail in H. cbn in H.
    repeat match type of H with (if ?b then _ else _) = _ => destruct b end;
      injection H as <- <-; cbn; lia.
Qed.

Lemma wstep_fire s t x s' o :
  w_enable s = true -> wstep s t x = Some (s', o) -> w_fire s' = w_fire s.
Proof.
  intros En. unfold wstep. destruct (w_done s || (t <? w_now s)); [discriminate|].
  destruct x as [|i b|i e|f r|i| |t0 tc tp bad re]; cbn -[open_watchdog tail]; intros H.
  1,6: injection H as <- <-; reflexivity.
  1,2,4: destruct (get (at_time s t) i); [|discriminate]; injection H as <- <-; reflexivity.
  - injection H as H. unfold open_watchdog in H. cbn in H. rewrite En in H.
    injection H as <- <-. reflexivity.
  - destruct ((t <=? t0) && (t0 <=? tc) && (tc <=? tp)) eqn:E; [|discriminate]. injection H as H.
    unfold tail in H. cbn in H.
    repeat match type of H with (if ?b then _ else _) = _ => destruct b end;
      injection H as <- <-; reflexivity.
Qed.

(* a step of another client, or the death of the connection, leaves the expiry alone *)
Lemma foreign_keeps s t x s' o i c :
  nth_error (w_cl s) i = Some c -> active c -> w_exp c <> 0 -> w_int c = false ->
  foreign i x = true -> wstep s t x = Some (s', o) ->
  exists c', nth_error (w_cl s') i = Some c' /\ active c' /\ w_exp c' = w_exp c /\ w_int c' = false.
Proof.
  intros Hc [U R] E I F H. unfold wstep in H.
  destruct (w_done s || (t <? w_now s)); [discriminate|].
  destruct x as [|j b|j e|f r|j| |t0 tc tp bad re]; cbn -[open_watchdog tail] in H.
  - injection H as <- <-. exists c. cbn. split; [apply client_add_nth; auto|]. repeat split; auto.
  - destruct (get (at_time s t) j) as [d|] eqn:G; [|discriminate]. injection H as <- <-.
    cbn in F. apply negb_true_iff, Nat.eqb_neq in F.
    exists c. cbn. rewrite nth_upd_other by auto. repeat split; auto.
  - destruct (get (at_time s t) j) as [d|] eqn:G; [|discriminate]. injection H as <- <-.
    cbn in F. apply negb_true_iff, Nat.eqb_neq in F.
    exists c. cbn. rewrite nth_upd_other by auto. repeat split; auto.
  - injection H as H. exists c.
    replace s' with (fst (open_watchdog (at_time s t) t f r)) by (rewrite H; reflexivity).
    rewrite open_cl. cbn. repeat split; auto.
  - destruct (get (at_time s t) j) as [d|] eqn:G; [|discriminate]. injection H as <- <-.
    apply get_nth in G as (G & _). cbn in G.
    destruct (Nat.eq_dec j i) as [->|N].
    + assert (d = c) by congruence. subst d.
      eexists. cbn. rewrite (nth_upd_same _ _ _ _ Hc). split; [reflexivity|].
      unfold pid_dead. replace (w_exp c =? 0) with false by lia. cbn. repeat split; auto.
    + exists c. cbn. rewrite nth_upd_other by auto. repeat split; auto.
  - injection H as <- <-. exists c. cbn. repeat split; auto.
  - destruct ((t <=? t0) && (t0 <=? tc) && (tc <=? tp)); [|discriminate]. injection H as H.
    exists c.
    replace s' with (fst (tail (at_time s t) t0 tc tp bad re)) by (rewrite H; reflexivity).
    rewrite tail_cl. cbn. repeat split; auto.
Qed.

Lemma wlive_shape s t i e s' o :
  wstep s t (WLive i e) = Some (s', o) ->
  w_done s = false /\ w_now s <= t /\
  exists c, nth_error (w_cl s) i = Some c /\ w_used c = true /\ w_int c = false /\
    nth_error (w_cl s') i = Some (mkWcl true true (w_ref c) false e) /\
    w_enable s' = w_enable s /\ w_done s' = false /\ w_fire s' = w_fire s /\ w_std s' = w_std s.
Proof.
  unfold wstep. destruct (w_done s) eqn:D; [discriminate|].
  destruct (t <? w_now s) eqn:T; [discriminate|]. cbn [orb].
  destruct (get (at_time s t) i) as [c|] eqn:G; [|discriminate]. intros H. injection H as <- <-.
  apply get_nth in G as (G & U & _ & N). cbn in G.
  split; [auto|]. split; [lia|]. exists c. cbn. rewrite (nth_upd_same _ _ _ _ G). auto 10.
Qed.

Lemma wref_shape s t i b s' o :
  wstep s t (WRef i b) = Some (s', o) ->
  w_done s = false /\ w_now s <= t /\
  exists c, nth_error (w_cl s) i = Some c /\ w_used c = true /\ w_int c = false /\
    nth_error (w_cl s') i = Some (mkWcl true true b false (w_exp c)) /\
    w_enable s' = w_enable s /\ w_done s' = false /\ w_fire s' = w_fire s /\ w_std s' = w_std s /\
    w_now s' = t.
Proof.
  unfold wstep. destruct (w_done s) eqn:D; [discriminate|].
  destruct (t <? w_now s) eqn:T; [discriminate|]. cbn [orb].
  destruct (get (at_time s t) i) as [c|] eqn:G; [|discriminate]. intros H. injection H as <- <-.
  apply get_nth in G as (G & U & _ & N). cbn in G.
  split; [auto|]. split; [lia|]. exists c. cbn. rewrite (nth_upd_same _ _ _ _ G). auto 10.
Qed.

Lemma hinv_step g sl s t e s' :
  0 <= sl -> 2 <= g_io g < 2 ^ 32 ->
  hinv g sl s -> t < 2 ^ 63 -> hok g sl s t e -> hstep g s t e = Some s' -> hinv g sl s'.
Proof.
  intros SL IO I T63 OK H. pose proof I as [I1 I2 I3 I4 I5 I6 I7 I8 I9 I10].
  assert (P63 : 2 ^ 63 + 8 * 2 ^ 32 < 2 ^ 64) by reflexivity.
  unfold hstep in H. destruct (t <? h_now s) eqn:T; [discriminate|]. apply Z.ltb_ge in T.
  destruct e as [x| | | | | | | |]; cbn -[wstep] in H.
  - destruct (foreign (g_me g) x) eqn:F; [|discriminate].
    destruct (wstep (h_w s) t x) as [[w o]|] eqn:E; [|discriminate]. injection H as <-.
    destruct OK as [L P]. destruct (tstep _ _ _ _ _ _ SL I1 L P E) as [TI _].
    destruct (wstep_now _ _ _ _ _ E) as [N1 N2].
    split; cbn; auto; try plia.
    + exact (wstep_std _ _ _ _ _ I2 E).
    + intros y Hy. apply I6 in Hy. plia.
    + intros A. destruct (I9 A) as (En & D & Fi & c & Hc & Ac & Ec & Ic & Le).
      assert (Gd : guarded (h_w s) (g_me g)) by (exists c; auto).
      destruct (guarded_enable _ _ _ _ _ _ Gd En E) as (En' & D' & _).
      split; [auto|]. split; [auto|].
      split; [rewrite (wstep_fire _ _ _ _ _ En E); auto|].
      destruct (foreign_keeps _ _ _ _ _ _ _ Hc Ac Ec Ic F E) as (c' & H1 & H2 & H3 & H4).
      exists c'. rewrite H3. auto.
  - destruct (h_pend s) eqn:E; [discriminate|]. injection H as <-.
    split; cbn; auto; try plia.
    intros y Hy. injection Hy as <-. plia.
  - destruct (h_pend s) as [x|] eqn:E; [|discriminate]. injection H as <-.
    destruct (I6 x eq_refl) as [X1 X2].
    split; cbn; auto; try plia; try discriminate.
    + intros y Hy. congruence.
    + intros A. destruct (I9 A) as (En & D & Fi & c & Hc & Ac & Ec & Ic & Le).
      split; [auto|]. split; [auto|]. split; [auto|]. exists c.
      unfold expiry in *. split; [auto|]. split; [auto|]. split; [auto|]. split; [auto|]. plia.
  - destruct (h_ok s) as [x|] eqn:E; [|discriminate].
    destruct (h_act s) eqn:A; [discriminate|].
    destruct (w_fire (h_w s) =? g_fire g) eqn:Fi; [|discriminate]. cbn -[wstep] in H.
    apply Z.eqb_eq in Fi.
    destruct (wstep (h_w s) t (WRef (g_me g) true)) as [[w1 o1]|] eqn:E1; [|discriminate].
    destruct (wstep w1 t (WLive (g_me g) (expiry g x))) as [[w2 o2]|] eqn:E2; [|discriminate].
    injection H as <-. pose proof (I7 x eq_refl) as ->.
    cbn in OK. rewrite E in OK. destruct OK as [En Far].
    destruct (tstep _ _ _ _ _ _ SL I1 (Logic.I : live_ok _ _ (WRef (g_me g) true)) Logic.I E1) as [TI1 _].
    destruct (wref_shape _ _ _ _ _ _ E1) as (D0 & Tn & c & Hc & U & Ii & Hc1 & En1 & D1 & F1 & S1 & N1).
    destruct (wlive_shape _ _ _ _ _ _ E2) as (_ & _ & c2 & Hc2 & U2 & Ii2 & Hc2' & En2 & D2 & F2 & S2).
    assert (c2 = mkWcl true true true false (w_exp c)) by congruence. subst c2. cbn in Hc2'.
    assert (Ex : w_std w1 <= expiry g (h_disk s) < 2 ^ 64).
    { unfold expiry in *. rewrite S1. plia. }
    assert (L2 : live_ok w1 t (WLive (g_me g) (expiry g (h_disk s)))).
    { cbn. intros _. split; [congruence|]. split; [auto|]. left. rewrite S1. plia. }
    destruct (tstep _ _ _ _ _ _ SL TI1 L2 Logic.I E2) as [TI2 _].
    destruct (wstep_now _ _ _ _ _ E2) as [N2 _]. cbn in N2.
    split; cbn; auto; try plia.
    + intros y Hy. apply I6 in Hy. plia.
    + intros _. split; [congruence|]. split; [auto|]. split; [rewrite F2, F1; plia|].
      eexists. split; [exact Hc2'|]. cbn. split; [split; reflexivity|].
      split; [unfold expiry; plia|]. split; [auto|]. plia.
  - destruct (h_ok s) as [x|] eqn:E; [|discriminate].
    destruct (h_act s) eqn:A; [|discriminate].
    destruct (wstep (h_w s) t (WLive (g_me g) (expiry g x))) as [[w o]|] eqn:E1; [|discriminate].
    injection H as <-. pose proof (I7 x eq_refl) as ->.
    destruct (I9 eq_refl) as (En & D & Fi & c & Hc & Ac & Ec & Ic & Le).
    destruct (wlive_shape _ _ _ _ _ _ E1) as (_ & _ & c2 & Hc2 & U2 & Ii2 & Hc2' & En2 & D2 & F2 & S2).
    assert (c2 = c) by congruence. subst c2.
    pose proof (TI_std _ _ I1).
    assert (L2 : live_ok (h_w s) t (WLive (g_me g) (expiry g (h_disk s)))).
    { cbn. intros _. split; [auto|]. split; [unfold expiry; plia|]. right. exists c. auto. }
    destruct (tstep _ _ _ _ _ _ SL I1 L2 Logic.I E1) as [TI2 _].
    destruct (wstep_now _ _ _ _ _ E1) as [N2 _]. cbn in N2.
    split; cbn; auto; try plia.
    + intros y Hy. apply I6 in Hy. plia.
    + intros _. split; [congruence|]. split; [auto|]. split; [congruence|].
      eexists. split; [exact Hc2'|]. cbn. destruct Ac as [_ Ac].
      split; [split; [reflexivity|exact Ac]|].
      split; [unfold expiry; plia|]. split; [auto|]. plia.
  - destruct (h_act s) eqn:A; [|discriminate]. injection H as <-.
    split; cbn; auto; try plia. intros y Hy. apply I6 in Hy. plia.
  - destruct (h_pids s) eqn:E; [discriminate|]. injection H as <-.
    split; cbn; auto; try plia. intros y Hy. apply I6 in Hy. plia.
  - destruct (h_pids s) eqn:E; [|discriminate]. destruct (h_act s) eqn:A; [|discriminate].
    destruct (wstep (h_w s) t (WLive (g_me g) 0)) as [[w1 o1]|] eqn:E1; [|discriminate].
    destruct (wstep w1 t (WRef (g_me g) false)) as [[w2 o2]|] eqn:E2; [|discriminate].
    injection H as <-.
    assert (L1 : live_ok (h_w s) t (WLive (g_me g) 0)) by (intros N; congruence).
    destruct (tstep _ _ _ _ _ _ SL I1 L1 Logic.I E1) as [TI1 _].
    destruct (tstep _ _ _ _ _ _ SL TI1 (Logic.I : live_ok _ _ (WRef (g_me g) false)) Logic.I E2) as [TI2 _].
    destruct (wstep_now _ _ _ _ _ E2) as [N2 _]. cbn in N2.
    split; cbn; auto; try plia; try discriminate.
    + eapply wstep_std; [|exact E2]. eapply wstep_std; [|exact E1]. auto.
    + intros y Hy. apply I6 in Hy. plia.
  - injection H as <-. split; cbn; auto; try plia. intros y Hy. apply I6 in Hy. plia.
Qed.

Lemma hinv_init g sl : hinv g sl hinit.
Proof.
  split; cbn; try lia; try discriminate; try congruence. apply tinit.
Qed.

Lemma hreach_inv g sl s1 s :
  0 <= sl -> 2 <= g_io g < 2 ^ 32 -> hinv g sl s1 -> hreach g sl s1 s -> hinv g sl s.
Proof.
  intros SL IO I1 R; revert I1; induction R as [|s1 s t e s' R IH T OK H]; intros I1; [auto|].
  exact (hinv_step _ _ _ _ _ _ SL IO (IH I1) T OK H).
Qed.

Lemma hreach_trans g sl a b c : hreach g sl a b -> hreach g sl b c -> hreach g sl a c.
Proof.
  intros H R; revert H; induction R as [|s1 s t e s' R IH T OK E]; intros H; [auto|].
  exact (hr_step _ _ _ _ _ _ _ (IH H) T OK E).
Qed.
