(* The worker pool that runs the commands of clients.
   Models src/main.c:63-72 and 936-1048.
   Every event below is one critical section of pool.mutex (or the part of a
   command outside of it).  pthread_cond_signal wakes one of the waiting workers,
   any of them; [ESpurious] is a wake-up without a signal, which POSIX permits.
   Not modelled: the AIO context of a worker, worker names. *)
From Coq Require Import List Arith Lia Bool Permutation.
Import ListNotations.

(* where a worker is in thread_pool_worker *)
Inductive wst :=
| WStart            (* 936-945: created, before taking the mutex *)
| WWait             (* 950: in pthread_cond_wait *)
| WWoken            (* 950: woken, does not have the mutex yet *)
| WRun (a : nat)    (* 957-961: running a command *)
| WFin              (* 963: command done, before taking the mutex *)
| WExit.            (* 970-977 *)

(* the thread that calls thread_pool_free: not yet, in cond_wait, signalled, back *)
Inductive mst := MNone | MWait | MWoken | MDone.

(* 63-72, with three ghost lists: the commands for which thread_pool_add_work
   returned 0, those handed to a worker and those that are done *)
Record pool := mkPool {
  p_q : list nat;      (* work_data *)
  p_ws : list wst;
  p_free : nat;        (* free_workers *)
  p_num : nat;         (* num_workers *)
  p_quit : bool;
  p_main : mst;
  p_acc : list nat;
  p_started : list nat;
  p_done : list nat }.

Inductive pev :=
| EAdd (a : nat) (create_ok : bool) (wake : nat)  (* wake: which waiter the signal reaches *)
| EEnter (w : nat)       (* worker w gets the mutex *)
| EFinish (w : nat)      (* worker w's command returns *)
| ESpurious (w : nat)
| EFree                  (* thread_pool_free up to its cond_wait *)
| EFreeRet               (* thread_pool_free returns *)
| ESpuriousMain.

Fixpoint upd {A} (l : list A) (i : nat) (x : A) : list A :=
  match l, i with [], _ => [] | _ :: r, O => x :: r | y :: r, S j => y :: upd r j x end.

Definition is_wait (w : wst) : bool := match w with WWait => true | _ => false end.

(* the [wake]-th waiting worker is woken; when there are fewer, the last one *)
Fixpoint signal (ws : list wst) (wake : nat) : list wst :=
  match ws with
  | [] => []
  | WWait :: r => if negb (existsb is_wait r) then WWoken :: r
                  else match wake with O => WWoken :: r | S k => WWait :: signal r k end
  | x :: r => x :: signal r wake
  end.

Definition broadcast (ws : list wst) : list wst :=
  map (fun w => match w with WWait => WWoken | x => x end) ws.

(* 978-1007: true when it returns 0 *)
Definition add_work (max : nat) (s : pool) (a : nat) (create_ok : bool) (wake : nat) : bool * pool :=
  if p_quit s then (false, s)                                   (* 984-987 *)
  else
    let create := Nat.eqb (p_free s) 0 && Nat.ltb (p_num s) max in  (* 991 *)
    if create && negb create_ok then (false, s)                 (* 994-1000: list_del *)
    else (true,
      mkPool (p_q s ++ [a])                                     (* 989 *)
        (signal (if create then p_ws s ++ [WStart] else p_ws s) wake)   (* 992, 1004 *)
        (p_free s) (if create then S (p_num s) else p_num s)    (* 1001 *)
        (p_quit s) (p_main s) (p_acc s) (p_started s) (p_done s)).

(* 947-972 for a worker that has the mutex: from the top of the loop, or from
   963 to the end of it, which comes to the same thing *)
Definition go_on (s : pool) (w : nat) : pool :=
  match p_q s with
  | a :: r =>                                                   (* 954-957 *)
      mkPool r (upd (p_ws s) w (WRun a)) (p_free s) (p_num s) (p_quit s) (p_main s)
        (p_acc s) (p_started s ++ [a]) (p_done s)
  | [] =>
      if p_quit s                                               (* 966-972 *)
      then mkPool [] (upd (p_ws s) w WExit) (p_free s) (p_num s - 1) true
             (match p_main s with MWait => if Nat.eqb (p_num s - 1) 0 then MWoken else MWait | m => m end)
             (p_acc s) (p_started s) (p_done s)
      else mkPool [] (upd (p_ws s) w WWait) (S (p_free s)) (p_num s) false (p_main s)   (* 949-950 *)
             (p_acc s) (p_started s) (p_done s)
  end.

Definition pstep (max : nat) (s : pool) (e : pev) : option pool :=
  match e with
  | EAdd a ok wake =>
      let (rv, s') := add_work max s a ok wake in
      Some (if rv then mkPool (p_q s') (p_ws s') (p_free s') (p_num s') (p_quit s') (p_main s')
                         (p_acc s' ++ [a]) (p_started s') (p_done s')
            else s')
  | EEnter w =>
      match nth_error (p_ws s) w with
      | Some WStart | Some WFin => Some (go_on s w)
      | Some WWoken =>                                          (* 951 *)
          Some (go_on (mkPool (p_q s) (p_ws s) (p_free s - 1) (p_num s) (p_quit s) (p_main s)
                         (p_acc s) (p_started s) (p_done s)) w)
      | _ => None
      end
  | EFinish w =>                                                (* 960-961 *)
      match nth_error (p_ws s) w with
      | Some (WRun a) => Some (mkPool (p_q s) (upd (p_ws s) w WFin) (p_free s) (p_num s) (p_quit s) (p_main s)
                                 (p_acc s) (p_started s) (p_done s ++ [a]))
      | _ => None
      end
  | ESpurious w =>
      match nth_error (p_ws s) w with
      | Some WWait => Some (mkPool (p_q s) (upd (p_ws s) w WWoken) (p_free s) (p_num s) (p_quit s) (p_main s)
                              (p_acc s) (p_started s) (p_done s))
      | _ => None
      end
  | EFree =>                                                    (* 1011-1015 *)
      match p_main s with
      | MNone =>
          Some (if Nat.ltb 0 (p_num s)
                then mkPool (p_q s) (broadcast (p_ws s)) (p_free s) (p_num s) true MWait
                       (p_acc s) (p_started s) (p_done s)
                else mkPool (p_q s) (p_ws s) (p_free s) (p_num s) true MDone
                       (p_acc s) (p_started s) (p_done s))
      | _ => None
      end
  | EFreeRet =>                                                 (* 1017 *)
      match p_main s with
      | MWoken => Some (mkPool (p_q s) (p_ws s) (p_free s) (p_num s) (p_quit s) MDone
                          (p_acc s) (p_started s) (p_done s))
      | _ => None
      end
  | ESpuriousMain =>
      match p_main s with
      | MWait => Some (mkPool (p_q s) (p_ws s) (p_free s) (p_num s) (p_quit s) MDone
                         (p_acc s) (p_started s) (p_done s))
      | _ => None
      end
  end.

(* 1020-1048 with all threads created *)
Definition pinit (min : nat) : pool := mkPool [] (repeat WStart min) 0 min false MNone [] [] [].

Fixpoint psteps (max : nat) (s : pool) (es : list pev) : option pool :=
  match es with
  | [] => Some s
  | e :: r => match pstep max s e with Some s' => psteps max s' r | None => None end
  end.

(* ---------------- counting ---------------- *)
Definition cnt (f : wst -> bool) (ws : list wst) : nat := length (filter f ws).
Definition is_woken (w : wst) : bool := match w with WWoken => true | _ => false end.
Definition is_exit (w : wst) : bool := match w with WExit => true | _ => false end.
Definition is_idle (w : wst) : bool := match w with WWait | WWoken => true | _ => false end.
Definition running (ws : list wst) : list nat :=
  flat_map (fun w => match w with WRun a => [a] | _ => [] end) ws.

Lemma upd_length {A} (l : list A) i x : length (upd l i x) = length l.
Proof. revert i; induction l; intros [|i]; cbn; auto. Qed.

Lemma nth_error_upd {A} (l : list A) i j x :
  nth_error (upd l i x) j = if Nat.eqb i j then (match nth_error l j with Some _ => Some x | None => None end) else nth_error l j.
Proof.
  revert i j; induction l as [|y l IH]; intros i j; cbn [upd].
  - destruct j; cbn; destruct (Nat.eqb i _); reflexivity.
  - destruct i, j; cbn; auto.
Qed.

Lemma cnt_upd f ws i old new :
  nth_error ws i = Some old ->
  cnt f (upd ws i new) + (if f old then 1 else 0) = cnt f ws + (if f new then 1 else 0).
Proof.
  revert i; induction ws as [|w ws IH]; intros [|i] H; cbn in H; try discriminate.
  - injection H as ->. unfold cnt; cbn. destruct (f old), (f new); cbn; lia.
  - specialize (IH _ H). unfold cnt in *; cbn. destruct (f w); cbn; lia.
Qed.

Lemma cnt_le f ws : cnt f ws <= length ws.
Proof. unfold cnt. induction ws; cbn; auto. destruct (f a); cbn; lia. Qed.

Lemma cnt_app f a b : cnt f (a ++ b) = cnt f a + cnt f b.
Proof. unfold cnt. rewrite filter_app, app_length. reflexivity. Qed.

Lemma running_app a b : running (a ++ b) = running a ++ running b.
Proof. unfold running. apply flat_map_app. Qed.

Lemma running_upd ws i old new :
  nth_error ws i = Some old ->
  Permutation (running [old] ++ running (upd ws i new)) (running [new] ++ running ws).
Proof.
  revert i; induction ws as [|w ws IH]; intros [|i] H; cbn in H; try discriminate.
  - injection H as ->. cbn [upd]. change (old :: ws) with ([old] ++ ws). change (new :: ws) with ([new] ++ ws).
    rewrite !running_app, !app_assoc. apply Permutation_app_tail, Permutation_app_comm.
  - specialize (IH _ H). cbn [upd]. change (w :: upd ws i new) with ([w] ++ upd ws i new).
    change (w :: ws) with ([w] ++ ws). rewrite !running_app.
    etransitivity; [apply Permutation_app_swap_app|].
    etransitivity; [apply Permutation_app_head, IH|]. apply Permutation_app_swap_app.
Qed.

(* ---------------- signal ---------------- *)
Lemma signal_length ws k : length (signal ws k) = length ws.
Proof.
  revert k; induction ws as [|w ws IH]; intros k; cbn; auto.
  destruct w; cbn; auto. destruct (existsb is_wait ws); cbn; auto. destruct k; cbn; auto.
Qed.

Lemma existsb_cnt f ws : existsb f ws = negb (Nat.eqb (cnt f ws) 0).
Proof. induction ws as [|w ws IH]; cbn; auto. unfold cnt; cbn. destruct (f w); cbn; auto. Qed.

(* one waiter is woken, if there is one *)
Lemma signal_cnt ws k :
  cnt is_wait (signal ws k) = cnt is_wait ws - 1
  /\ cnt is_woken (signal ws k) = cnt is_woken ws + (if Nat.eqb (cnt is_wait ws) 0 then 0 else 1)
  /\ cnt is_idle (signal ws k) = cnt is_idle ws
  /\ cnt is_exit (signal ws k) = cnt is_exit ws
  /\ running (signal ws k) = running ws.
Proof.
  revert k; induction ws as [|w ws IH]; intros k; [cbn; auto 6|].
  destruct w; cbn [signal]; try (destruct (IH k) as (A & B & C & D & E); unfold cnt, running in *; cbn; rewrite ?A, ?B, ?C, ?D, ?E; repeat split; auto; fail).
  rewrite existsb_cnt. destruct (Nat.eqb_spec (cnt is_wait ws) 0) as [Z|Z]; cbn [negb].
  - unfold cnt, running in *; cbn. repeat split; try lia.
  - destruct k.
    + unfold cnt, running in *; cbn. repeat split; try lia.
    + destruct (IH k) as (A & B & C & D & E). unfold cnt, running in *; cbn. rewrite A, B, C, D, E.
      destruct (Nat.eqb_spec (length (filter is_wait ws)) 0); repeat split; try lia.
Qed.

Lemma broadcast_cnt ws :
  cnt is_wait (broadcast ws) = 0
  /\ cnt is_idle (broadcast ws) = cnt is_idle ws
  /\ cnt is_exit (broadcast ws) = cnt is_exit ws
  /\ running (broadcast ws) = running ws /\ length (broadcast ws) = length ws.
Proof.
  induction ws as [|w ws IH]; [cbn; auto 6|]. destruct IH as (A & B & C & D & E).
  unfold broadcast, cnt, running in *; destruct w; cbn; rewrite ?A, ?B, ?C, ?D, ?E; auto 6.
Qed.

(* ---------------- the invariant ---------------- *)
Record pinv (min max : nat) (s : pool) : Prop := {
  i_free : p_free s = cnt is_idle (p_ws s);
  i_num : p_num s + cnt is_exit (p_ws s) = length (p_ws s);
  i_exit : p_quit s = false -> cnt is_exit (p_ws s) = 0;
  i_some : p_quit s = false -> 1 <= p_num s;
  i_max : length (p_ws s) <= Nat.max min max;
  i_order : p_acc s = p_started s ++ p_q s;
  i_perm : Permutation (p_started s) (p_done s ++ running (p_ws s));
  (* while a worker sleeps, there is a woken worker for each queued command *)
  i_wake : cnt is_wait (p_ws s) <> 0 -> length (p_q s) <= cnt is_woken (p_ws s);
  i_quit_wait : p_quit s = true -> cnt is_wait (p_ws s) = 0;
  (* an exited worker found the queue empty *)
  i_exit_q : cnt is_exit (p_ws s) <> 0 -> p_q s = [];
  i_main : p_main s = MWoken -> p_num s = 0;
  i_main0 : p_main s = MNone -> p_quit s = false;
  i_len : 1 <= length (p_ws s)
}.

Lemma cnt_zero f ws : cnt f ws = 0 <-> (forall i w, nth_error ws i = Some w -> f w = false).
Proof.
  induction ws as [|w ws IH].
  - split; auto. intros _ [|i] w H; discriminate.
  - unfold cnt in *; cbn. destruct (f w) eqn:E; cbn.
    + split; [discriminate|]. intros H. specialize (H 0 w eq_refl). congruence.
    + rewrite IH. split; intros H.
      * intros [|i] x Hx; cbn in Hx; [injection Hx as <-; auto|eauto].
      * intros i x Hx. apply (H (S i) x Hx).
Qed.

Lemma cnt_repeat_start f n : f WStart = false -> cnt f (repeat WStart n) = 0.
Proof. intros H. induction n; unfold cnt in *; cbn; rewrite ?H; auto. Qed.
Lemma running_repeat n : running (repeat WStart n) = [].
Proof. induction n; cbn; auto. Qed.

Lemma pinv_init min max : 1 <= min -> pinv min max (pinit min).
Proof.
  intros H. constructor; cbn [pinit p_q p_ws p_free p_num p_quit p_main p_acc p_started p_done];
    rewrite ?cnt_repeat_start, ?repeat_length, ?running_repeat; auto; try lia; try congruence.
Qed.

Lemma cnt_pos f ws i w : nth_error ws i = Some w -> f w = true -> cnt f ws <> 0.
Proof. intros H F E. rewrite cnt_zero in E. rewrite (E _ _ H) in F. discriminate. Qed.

(* [go_on] when the worker is counted neither as idle nor as exited and runs nothing;
   [d] accounts for the decrement of free_workers of a woken worker *)
Lemma pinv_go_on min max s w old :
  nth_error (p_ws s) w = Some old ->
  (old = WStart \/ old = WFin \/ old = WWoken) ->
  pinv min max s ->
  pinv min max (go_on (mkPool (p_q s) (p_ws s) (p_free s - (if is_woken old then 1 else 0)) (p_num s) (p_quit s) (p_main s)
                         (p_acc s) (p_started s) (p_done s)) w).
Proof.
  intros Hw Hold I. destruct I as [If In Ie Is Im Io Ip Iw Iq Ix Ima Ima0 Il].
  assert (Hx : is_exit old = false) by (destruct Hold as [->|[->| ->]]; reflexivity).
  assert (Hwt : is_wait old = false) by (destruct Hold as [->|[->| ->]]; reflexivity).
  assert (Hid : is_idle old = is_woken old) by (destruct Hold as [->|[->| ->]]; reflexivity).
  assert (Hr : running [old] = []) by (destruct Hold as [->|[->| ->]]; reflexivity).
  assert (Hfree : is_woken old = true -> 1 <= p_free s).
  { intros E. rewrite If. pose proof (cnt_pos is_idle _ _ _ Hw ltac:(congruence)). lia. }
  unfold go_on. cbn [p_q p_ws p_free p_num p_quit p_main p_acc p_started p_done].
  destruct (p_q s) as [|a r] eqn:Q.
  - destruct (p_quit s) eqn:QU.
    + pose proof (cnt_upd is_exit _ _ _ WExit Hw) as Ce. pose proof (cnt_upd is_idle _ _ _ WExit Hw) as Ci.
      pose proof (cnt_upd is_wait _ _ _ WExit Hw) as Cw. pose proof (running_upd _ _ _ WExit Hw) as Cr.
      rewrite Hx in Ce. rewrite Hid in Ci. rewrite Hwt in Cw. rewrite Hr in Cr. cbn [is_exit is_idle is_wait] in *.
      cbn [app running flat_map] in Cr.
      assert (Hlen : cnt is_exit (p_ws s) < length (p_ws s)).
      { pose proof (cnt_le is_exit (upd (p_ws s) w WExit)) as L. rewrite upd_length in L. lia. }
      constructor; cbn [p_q p_ws p_free p_num p_quit p_main p_acc p_started p_done]; rewrite ?upd_length; auto; try congruence.
      * rewrite If in *. destruct (is_woken old); lia.
      * lia.
      * etransitivity; [exact Ip|]. apply Permutation_app_head. symmetry. exact Cr.
      * intros H. specialize (Iq eq_refl). lia.
      * intros _. specialize (Iq eq_refl). lia.
      * destruct (p_main s); try congruence; auto.
        -- destruct (Nat.eqb_spec (p_num s - 1) 0); congruence.
        -- intros _. rewrite (Ima eq_refl). reflexivity.
      * destruct (p_main s); try congruence. 2:{ destruct (Nat.eqb _ _); congruence. }
        intros _. specialize (Ima0 eq_refl). congruence.
    + pose proof (cnt_upd is_exit _ _ _ WWait Hw) as Ce. pose proof (cnt_upd is_idle _ _ _ WWait Hw) as Ci.
      pose proof (running_upd _ _ _ WWait Hw) as Cr.
      rewrite Hx in Ce. rewrite Hid in Ci. rewrite Hr in Cr. cbn [is_exit is_idle is_wait] in *.
      cbn [app running flat_map] in Cr.
      constructor; cbn [p_q p_ws p_free p_num p_quit p_main p_acc p_started p_done]; rewrite ?upd_length; auto; try congruence; try lia.
      * rewrite If in *. destruct (is_woken old); lia.
      * etransitivity; [exact Ip|]. apply Permutation_app_head. symmetry. exact Cr.
      * cbn. lia.
  - pose proof (cnt_upd is_exit _ _ _ (WRun a) Hw) as Ce. pose proof (cnt_upd is_idle _ _ _ (WRun a) Hw) as Ci.
    pose proof (cnt_upd is_wait _ _ _ (WRun a) Hw) as Cw. pose proof (cnt_upd is_woken _ _ _ (WRun a) Hw) as Co.
    pose proof (running_upd _ _ _ (WRun a) Hw) as Cr.
    rewrite Hx in Ce. rewrite Hid in Ci. rewrite Hwt in Cw. rewrite Hr in Cr. cbn [is_exit is_idle is_wait is_woken] in *.
    cbn [app running flat_map] in Cr. fold (running (p_ws s)) in Cr.
    constructor; cbn [p_q p_ws p_free p_num p_quit p_main p_acc p_started p_done]; rewrite ?upd_length; auto; try congruence; try lia.
    + intros H. specialize (Ie H). lia.
    + rewrite Io. rewrite <- app_assoc. reflexivity.
    + etransitivity; [apply Permutation_app_tail, Ip|]. rewrite <- app_assoc. apply Permutation_app_head.
      etransitivity; [apply Permutation_app_comm|]. symmetry. exact Cr.
    + intros H. assert (H' : cnt is_wait (p_ws s) <> 0) by lia. specialize (Iw H'). cbn in Iw. destruct (is_woken old); lia.
    + intros H. specialize (Iq H). lia.
    + intros H. assert (H' : cnt is_exit (p_ws s) <> 0) by lia. specialize (Ix H'). discriminate.
Qed.

Lemma pinv_step min max s e s' : pinv min max s -> pstep max s e = Some s' -> pinv min max s'.
Proof.
  intros I. destruct e; cbn [pstep].
  - (* add *)
    unfold add_work.
    destruct (p_quit s) eqn:QU; [intros E; injection E as <-; exact I|].
    destruct (Nat.eqb (p_free s) 0 && Nat.ltb (p_num s) max) eqn:C; cbn [andb].
    + destruct create_ok; cbn [negb]; [|intros E; injection E as <-; exact I].
      intros E0; injection E0 as <-. cbn [p_q p_ws p_free p_num p_quit p_main p_acc p_started p_done].
      apply andb_true_iff in C. destruct C as [Cf Cn]. apply Nat.eqb_eq in Cf. apply Nat.ltb_lt in Cn.
      destruct I as [If In Ie Is Im Io Ip Iw Iq Ix Ima Ima0 Il].
      destruct (signal_cnt (p_ws s ++ [WStart]) wake) as (A & B & D & E & F).
      rewrite !cnt_app in A, B, D, E.
      change (cnt is_wait [WStart]) with 0 in A, B. change (cnt is_woken [WStart]) with 0 in B.
      change (cnt is_idle [WStart]) with 0 in D. change (cnt is_exit [WStart]) with 0 in E.
      rewrite running_app in F. cbn [running flat_map] in F. rewrite app_nil_r in F.
      assert (W0 : cnt is_wait (p_ws s) = 0).
      { rewrite Cf in If. symmetry in If. rewrite cnt_zero in *. intros i w H. specialize (If i w H). destruct w; cbn in *; congruence. }
      specialize (Ie QU). specialize (Is QU). clear B.
      constructor; cbn [p_q p_ws p_free p_num p_quit p_main p_acc p_started p_done]; rewrite ?signal_length, ?app_length; cbn [length]; auto; try congruence; try lia.
      all: try (rewrite F; exact Ip); try (rewrite Io, app_assoc; reflexivity).
      intros H. specialize (Ima H). lia.
    + intros E0; injection E0 as <-. cbn [p_q p_ws p_free p_num p_quit p_main p_acc p_started p_done].
      destruct I as [If In Ie Is Im Io Ip Iw Iq Ix Ima Ima0 Il].
      destruct (signal_cnt (p_ws s) wake) as (A & B & D & E & F).
      constructor; cbn [p_q p_ws p_free p_num p_quit p_main p_acc p_started p_done]; rewrite ?signal_length; auto; try congruence; try lia.
      all: try (rewrite F; exact Ip); try (rewrite Io, app_assoc; reflexivity).
      * intros _. rewrite E. apply Ie, QU.
      * rewrite A, B. intros H. assert (H' : cnt is_wait (p_ws s) <> 0) by lia. specialize (Iw H').
        rewrite app_length. cbn [length]. destruct (Nat.eqb_spec (cnt is_wait (p_ws s)) 0); lia.
      * intros H. rewrite E in H. specialize (Ie QU). lia.
  - (* enter *)
    destruct (nth_error (p_ws s) w) as [[]|] eqn:Hw; try discriminate; intros E; injection E as <-.
    + pose proof (pinv_go_on _ _ _ _ _ Hw (or_introl eq_refl) I) as P. cbn [is_woken] in P. rewrite Nat.sub_0_r in P.
      destruct s; exact P.
    + exact (pinv_go_on _ _ _ _ _ Hw (or_intror (or_intror eq_refl)) I).
    + pose proof (pinv_go_on _ _ _ _ _ Hw (or_intror (or_introl eq_refl)) I) as P. cbn [is_woken] in P. rewrite Nat.sub_0_r in P.
      destruct s; exact P.
  - (* finish *)
    destruct (nth_error (p_ws s) w) as [[]|] eqn:Hw; try discriminate; intros E; injection E as <-.
    destruct I as [If In Ie Is Im Io Ip Iw Iq Ix Ima Ima0 Il].
    pose proof (cnt_upd is_exit _ _ _ WFin Hw) as Ce. pose proof (cnt_upd is_idle _ _ _ WFin Hw) as Ci.
    pose proof (cnt_upd is_wait _ _ _ WFin Hw) as Cw. pose proof (cnt_upd is_woken _ _ _ WFin Hw) as Co.
    pose proof (running_upd _ _ _ WFin Hw) as Cr. cbn [is_exit is_idle is_wait is_woken] in *.
    cbn [app running flat_map] in Cr. fold (running (p_ws s)) in Cr. fold (running (upd (p_ws s) w WFin)) in Cr.
    constructor; cbn [p_q p_ws p_free p_num p_quit p_main p_acc p_started p_done]; rewrite ?upd_length; auto; try congruence; try lia.
    all: try (intros H; specialize (Ie H); lia); try (intros H; specialize (Iq H); lia); try (intros H; apply Ix; lia).
    all: try (intros H; assert (H' : cnt is_wait (p_ws s) <> 0) by lia; specialize (Iw H'); lia).
    etransitivity; [exact Ip|]. rewrite <- app_assoc. apply Permutation_app_head. symmetry. exact Cr.
  - (* spurious *)
    destruct (nth_error (p_ws s) w) as [[]|] eqn:Hw; try discriminate; intros E; injection E as <-.
    destruct I as [If In Ie Is Im Io Ip Iw Iq Ix Ima Ima0 Il].
    pose proof (cnt_upd is_exit _ _ _ WWoken Hw) as Ce. pose proof (cnt_upd is_idle _ _ _ WWoken Hw) as Ci.
    pose proof (cnt_upd is_wait _ _ _ WWoken Hw) as Cw. pose proof (cnt_upd is_woken _ _ _ WWoken Hw) as Co.
    pose proof (running_upd _ _ _ WWoken Hw) as Cr. cbn [is_exit is_idle is_wait is_woken] in *.
    cbn [app running flat_map] in Cr. fold (running (p_ws s)) in Cr. fold (running (upd (p_ws s) w WWoken)) in Cr.
    constructor; cbn [p_q p_ws p_free p_num p_quit p_main p_acc p_started p_done]; rewrite ?upd_length; auto; try congruence; try lia.
    all: try (intros H; specialize (Ie H); lia); try (intros H; specialize (Iq H); lia); try (intros H; apply Ix; lia).
    all: try (intros H; assert (H' : cnt is_wait (p_ws s) <> 0) by lia; specialize (Iw H'); lia).
    etransitivity; [exact Ip|]. apply Permutation_app_head. symmetry. exact Cr.
  - (* free *)
    destruct (p_main s) eqn:M; try discriminate; intros E; injection E as <-.
    destruct I as [If In Ie Is Im Io Ip Iw Iq Ix Ima Ima0 Il].
    destruct (broadcast_cnt (p_ws s)) as (A & B & C & D & F).
    specialize (Is (Ima0 M)). destruct (Nat.ltb_spec 0 (p_num s)); [|lia].
    constructor; cbn [p_q p_ws p_free p_num p_quit p_main p_acc p_started p_done]; auto; try congruence; try lia.
    all: try (rewrite D; exact Ip); try (intros H1; apply Ix; lia).
  - destruct (p_main s) eqn:M; try discriminate; intros E; injection E as <-.
    destruct I as [If In Ie Is Im Io Ip Iw Iq Ix Ima Ima0 Il].
    constructor; cbn [p_q p_ws p_free p_num p_quit p_main p_acc p_started p_done]; auto; try congruence.
  - destruct (p_main s) eqn:M; try discriminate; intros E; injection E as <-.
    destruct I as [If In Ie Is Im Io Ip Iw Iq Ix Ima Ima0 Il].
    constructor; cbn [p_q p_ws p_free p_num p_quit p_main p_acc p_started p_done]; auto; try congruence.
Qed.

Lemma pinv_steps min max es s s' : pinv min max s -> psteps max s es = Some s' -> pinv min max s'.
Proof.
  revert s; induction es as [|e es IH]; intros s I H; cbn in H.
  - injection H as <-. exact I.
  - destruct (pstep max s e) eqn:E; [|discriminate]. eauto using pinv_step.
Qed.

(* ---------------- work left ---------------- *)
Definition weight (w : wst) : nat :=
  match w with WRun _ => 2 | WStart | WWoken | WFin => 1 | WWait | WExit => 0 end.
Definition work (s : pool) : nat := 2 * length (p_q s) + list_sum (map weight (p_ws s)).

Lemma weight_upd ws i old new :
  nth_error ws i = Some old ->
  list_sum (map weight (upd ws i new)) + weight old = list_sum (map weight ws) + weight new.
Proof.
  revert i; induction ws as [|w ws IH]; intros [|i] H; cbn in H; try discriminate.
  - injection H as ->. cbn. lia.
  - specialize (IH _ H). cbn [upd map list_sum fold_right]. unfold list_sum in *. cbn. lia.
Qed.

Definition worker_ev (e : pev) : bool := match e with EEnter _ | EFinish _ => true | _ => false end.

Lemma work_decreases max s e s' : worker_ev e = true -> pstep max s e = Some s' -> work s' < work s.
Proof.
  destruct e; try discriminate; intros _; cbn [pstep].
  - destruct (nth_error (p_ws s) w) as [old|] eqn:Hw; [|discriminate].
    assert (forall f, weight old = 1 -> work (go_on (mkPool (p_q s) (p_ws s) f (p_num s) (p_quit s) (p_main s)
              (p_acc s) (p_started s) (p_done s)) w) < work s) as G.
    { intros f W. unfold go_on, work. cbn [p_q p_ws p_free p_num p_quit p_main p_acc p_started p_done].
      destruct (p_q s) as [|a r]; [destruct (p_quit s)|]; cbn [p_q p_ws length].
      - pose proof (weight_upd _ _ _ WExit Hw). cbn [weight] in *. lia.
      - pose proof (weight_upd _ _ _ WWait Hw). cbn [weight] in *. lia.
      - pose proof (weight_upd _ _ _ (WRun a) Hw). cbn [weight] in *. lia. }
    destruct old; try discriminate; intros E; injection E as <-.
    + specialize (G (p_free s) eq_refl). destruct s; exact G.
    + exact (G _ eq_refl).
    + specialize (G (p_free s) eq_refl). destruct s; exact G.
  - destruct (nth_error (p_ws s) w) as [[]|] eqn:Hw; try discriminate; intros E; injection E as <-.
    unfold work. cbn [p_q p_ws]. pose proof (weight_upd _ _ _ WFin Hw). cbn [weight] in *. lia.
Qed.

(* no worker can go on: all commands are done *)
Lemma quiet_done min max s :
  pinv min max s -> (forall e, worker_ev e = true -> pstep max s e = None) ->
  p_q s = [] /\ running (p_ws s) = [].
Proof.
  intros I Q.
  assert (A : forall i w, nth_error (p_ws s) i = Some w -> w = WWait \/ w = WExit).
  { intros i w H. pose proof (Q (EEnter i) eq_refl) as E. pose proof (Q (EFinish i) eq_refl) as F.
    cbn [pstep] in E, F. rewrite H in E, F. destruct w; auto; discriminate. }
  assert (W : cnt is_woken (p_ws s) = 0).
  { apply cnt_zero. intros i w H. destruct (A i w H) as [->| ->]; reflexivity. }
  split.
  - destruct (p_quit s) eqn:QU.
    + destruct (p_ws s) as [|w ws] eqn:E.
      * pose proof (i_len _ _ _ I) as L. rewrite E in L. cbn in L. lia.
      * apply (i_exit_q _ _ _ I). rewrite E. pose proof (A 0 w eq_refl) as [->| ->].
        -- pose proof (i_quit_wait _ _ _ I QU) as Z. rewrite E in Z. discriminate.
        -- discriminate.
    + pose proof (i_some _ _ _ I QU) as N. pose proof (i_num _ _ _ I) as M. rewrite (i_exit _ _ _ I QU) in M.
      destruct (p_ws s) as [|w ws] eqn:E; [cbn in M; lia|].
      pose proof (A 0 w eq_refl) as [->| ->].
      * pose proof (i_wake _ _ _ I) as K. rewrite E in K. specialize (K ltac:(discriminate)). rewrite W in K.
        destruct (p_q s); auto. cbn in K. lia.
      * pose proof (i_exit _ _ _ I QU) as Z. rewrite E in Z. discriminate.
  - unfold running. clear - A. induction (p_ws s) as [|w ws IH]; auto.
    cbn. rewrite IH by (intros i x H; apply (A (S i) x H)).
    destruct (A 0 w eq_refl) as [->| ->]; reflexivity.
Qed.

(* to look at concrete runs *)
Lemma obs_some {A} (f : pool -> A) (r : option pool) (x : A) :
  option_map f r = Some x -> exists s, r = Some s /\ f s = x.
Proof. destruct r; cbn; [intros H; injection H as <-; eauto|discriminate]. Qed.
