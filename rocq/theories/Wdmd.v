(* The watchdog daemon: client bookkeeping and test_loop, wdmd/main.c.

   One step is one call that a client, a signal or the poll loop causes.  An
   iteration of test_loop is any number of client steps and then WTail; WTail alone
   is an iteration after a poll timeout.  Steps in which nothing relevant happens
   (REGISTER, STATUS, DUMP_DEBUG) are left out.

   Simplifications.
   - client[] is a list; client_alloc (155-179) appends, one slot at a time, instead
     of CLIENT_NALLOC slots.
   - refcount is the flag 0 / 1 that WDMD refcount set / clear store (528-536).
   - last_keepalive and last_closeunclean only appear in log messages.
   - test_files and test_scripts give one bit: whether anything failed; the time they
     take is visible in the three times of WTail.
   - k_armed, k_last are the kernel watchdog: whether it counts down, and when it was
     last pinged.  Opening or keeping alive pings, close without V pings and leaves it
     armed, V and close disarms.  w_tc is the time of the last client test or of the
     opening of the device.  These three are ghosts: no step reads them. *)
From Coq Require Import List ZArith Lia Bool Arith ZifyBool.
Import ListNotations.
Open Scope Z_scope.

(* struct client, wdmd/main.c:66-79 *)
Record wcl := mkWcl {
  w_used : bool;
  w_con : bool;         (* fd >= 0 *)
  w_ref : bool;         (* refcount *)
  w_int : bool;         (* internal *)
  w_exp : Z }.          (* expire *)

Definition unused : wcl := mkWcl false false false false 0.

Record wst := mkWst {
  w_now : Z;
  w_cl : list wcl;
  w_open : bool;        (* dev_fd != -1 *)
  w_enable : bool;      (* test_loop_enable *)
  w_fire : Z;           (* fire_timeout *)
  w_std : Z;            (* standard_test_interval *)
  w_ival : Z;           (* test_interval *)
  w_ttime : Z;          (* test_time *)
  w_reset : bool;       (* resetting *)
  w_quit : bool;        (* daemon_quit *)
  w_done : bool;        (* test_loop has returned *)
  k_armed : bool;
  k_last : Z;
  w_tc : Z }.

(* what reaches the watchdog device *)
Inductive wout := OPing (t : Z) | ODisarm (t : Z).

(* outcome of open and the ioctls in _open_watchdog, 419-489: open failed; the
   timeout cannot be read or set; success *)
Inductive openres := OpNone | OpBad | OpOk.

Inductive win :=
| WConn                                    (* accept, client_add 181-202 *)
| WRef (i : nat) (b : bool)                (* refcount set / clear, 528-536 *)
| WLive (i : nat) (e : Z)                  (* TEST_LIVE, 541-546 *)
| WOpen (fire : Z) (r : openres)           (* OPEN_WATCHDOG *)
| WDead (i : nat)                          (* client_pid_dead *)
| WSig                                     (* SIGTERM or SIGINT *)
| WTail (t0 tc tp : Z) (bad : bool) (reopen : bool).
    (* test_time, the time test_clients reads, the time the device is touched;
       whether a file or script test failed; whether open_dev succeeds *)

(* _init_test_interval, 339-357 *)
Definition init_test_interval (fire : Z) : Z :=
  if 60 <=? fire then 10 else if 30 <=? fire then 5 else if 10 <=? fire then 2 else 1.

Definition u64 (x : Z) : Z := x mod 2 ^ 64.

Fixpoint upd (i : nat) (c : wcl) (l : list wcl) : list wcl :=
  match l, i with
  | [], _ => []
  | _ :: r, O => c :: r
  | x :: r, S j => x :: upd j c r
  end.

(* client_add, 181-202: the first unused slot; the other fields of an unused slot
   are zero *)
Definition new_client (c : wcl) : wcl := mkWcl true true (w_ref c) false (w_exp c).

Fixpoint client_add (l : list wcl) : list wcl :=
  match l with
  | [] => [new_client unused]
  | c :: r => if w_used c then c :: client_add r else new_client c :: r
  end.

(* client_pid_dead, 204-254 *)
Definition pid_dead (c : wcl) : wcl :=
  if w_exp c =? 0 then unused
  else mkWcl (w_used c) false (w_ref c) (w_int c) (w_exp c).

(* one client in test_clients, 656-723; the difference is of type uint64_t *)
Definition client_fails (std t : Z) (c : wcl) : bool :=
  w_used c && negb (w_exp c =? 0) && ((w_exp c <=? t) || (u64 (w_exp c - std) <=? t)).

Definition test_clients (std t : Z) (l : list wcl) : bool := existsb (client_fails std t) l.

(* active_clients 725-734, count_clients 736-753 *)
Definition active_clients (l : list wcl) : bool := existsb w_ref l.
Definition active_usage (l : list wcl) : bool := existsb (fun c => w_used c && w_ref c) l.
Definition external_usage (l : list wcl) : bool := existsb (fun c => w_used c && negb (w_int c)) l.

Arguments test_clients : simpl never.
Arguments active_clients : simpl never.
Arguments active_usage : simpl never.
Arguments external_usage : simpl never.

Definition set_cl (s : wst) (l : list wcl) : wst :=
  mkWst (w_now s) l (w_open s) (w_enable s) (w_fire s) (w_std s) (w_ival s) (w_ttime s)
    (w_reset s) (w_quit s) (w_done s) (k_armed s) (k_last s) (w_tc s).

(* close_watchdog, 378-397 *)
Definition disarm (s : wst) (t : Z) : list wout := if w_open s then [ODisarm t] else [].
Definition armed_after_close (s : wst) : bool := if w_open s then false else k_armed s.

(* a request is only read from a connection that is there; the listening socket and
   the signal descriptor (internal) are no connections *)
Definition connected (s : wst) (i : nat) (c : wcl) : Prop :=
  nth_error (w_cl s) i = Some c /\ w_used c = true /\ w_con c = true /\ w_int c = false.

Definition get (s : wst) (i : nat) : option wcl :=
  match nth_error (w_cl s) i with
  | Some c => if w_used c && w_con c && negb (w_int c) then Some c else None
  | None => None
  end.

(* one iteration of the loop after the client callbacks, 1544-1619; after the break
   main calls close_watchdog (1929) *)
Definition tail (s : wst) (t0 tc tp : Z) (bad reopen : bool) : wst * list wout :=
  if w_quit s && negb (active_usage (w_cl s)) then
    (mkWst tp (w_cl s) false (w_enable s) (w_fire s) (w_std s) (w_ival s) (w_ttime s)
       (w_reset s) (w_quit s) true (armed_after_close s) (k_last s) (w_tc s), disarm s tp)
  else if negb (w_enable s) then
    (mkWst tp (w_cl s) (w_open s) (w_enable s) (w_fire s) (w_std s) (w_ival s) (w_ttime s)
       (w_reset s) (w_quit s) (w_done s) (k_armed s) (k_last s) (w_tc s), [])
  else if negb (active_usage (w_cl s)) && negb (external_usage (w_cl s)) && negb (w_reset s) then
    (mkWst tp (w_cl s) false false (w_fire s) (w_std s) (w_std s) 0
       (w_reset s) (w_quit s) (w_done s) (armed_after_close s) (k_last s) (w_tc s), disarm s tp)
  else if w_ival s <=? u64 (t0 - w_ttime s) then
    if bad || test_clients (w_std s) tc (w_cl s) then
      (mkWst tp (w_cl s) false (w_enable s) (w_fire s) (w_std s) 1 t0
         true (w_quit s) (w_done s) (k_armed s) (if w_open s then tp else k_last s) tc,
       if w_open s then [OPing tp] else [])
    else
      let op := w_open s || reopen in
      (mkWst tp (w_cl s) op (w_enable s) (w_fire s) (w_std s) (w_std s) t0
         false (w_quit s) (w_done s) (if op then true else k_armed s)
         (if op then tp else k_last s) tc,
       if op then [OPing tp] else [])
  else
    (mkWst tp (w_cl s) (w_open s) (w_enable s) (w_fire s) (w_std s) (w_ival s) (w_ttime s)
       (w_reset s) (w_quit s) (w_done s) (k_armed s) (k_last s) (w_tc s), []).

(* _open_watchdog, 419-489 *)
Definition open_watchdog (s : wst) (t fire : Z) (r : openres) : wst * list wout :=
  if w_enable s then (s, [])
  else if fire =? 0 then (s, [])
  else if w_open s then (s, [])
  else match r with
  | OpNone => (s, [])
  | OpBad =>
      (mkWst (w_now s) (w_cl s) false false (w_fire s) (w_std s) (w_ival s) (w_ttime s)
         (w_reset s) (w_quit s) (w_done s) false t (w_tc s), [OPing t; ODisarm t])
  | OpOk =>
      let i := init_test_interval fire in
      (mkWst (w_now s) (w_cl s) true true fire i i (w_ttime s)
         (w_reset s) (w_quit s) (w_done s) true t t, [OPing t])
  end.

Definition at_time (s : wst) (t : Z) : wst :=
  mkWst t (w_cl s) (w_open s) (w_enable s) (w_fire s) (w_std s) (w_ival s) (w_ttime s)
    (w_reset s) (w_quit s) (w_done s) (k_armed s) (k_last s) (w_tc s).

(* process_connection 491-574, process_signals 1429-1448, test_loop 1510-1625; the
   call happens at time t *)
Definition wstep (s0 : wst) (t : Z) (x : win) : option (wst * list wout) :=
  if w_done s0 || (t <? w_now s0) then None else
  let s := at_time s0 t in
  match x with
  | WConn => Some (set_cl s (client_add (w_cl s)), [])
  | WRef i b =>
      match get s i with
      | Some c => Some (set_cl s (upd i (mkWcl true true b false (w_exp c)) (w_cl s)), [])
      | None => None
      end
  | WLive i e =>
      match get s i with
      | Some c => Some (set_cl s (upd i (mkWcl true true (w_ref c) false e) (w_cl s)), [])
      | None => None
      end
  | WOpen fire r => Some (open_watchdog s t fire r)
  | WDead i =>
      match get s i with
      | Some c => Some (set_cl s (upd i (pid_dead c) (w_cl s)), [])
      | None => None
      end
  | WSig =>
      Some (mkWst t (w_cl s) (w_open s) (w_enable s) (w_fire s) (w_std s) (w_ival s)
              (w_ttime s) (w_reset s) (w_quit s || negb (active_clients (w_cl s)))
              (w_done s) (k_armed s) (k_last s) (w_tc s), [])
  | WTail t0 tc tp bad reopen =>
      if (t <=? t0) && (t0 <=? tc) && (tc <=? tp) then Some (tail s t0 tc tp bad reopen)
      else None
  end.

(* setup_clients 1231-1263 and setup_signals 1451-1486 leave two internal clients;
   setup_watchdog (1159) finds the device and closes it again *)
Definition internal_client : wcl := mkWcl true true false true 0.
Definition winit : wst :=
  mkWst 0 [internal_client; internal_client] false false 60 10 10 0 false false false false 0 0.

Fixpoint wrun (s : wst) (l : list (Z * win)) : option (wst * list wout) :=
  match l with
  | [] => Some (s, [])
  | (t, x) :: r =>
      match wstep s t x with
      | None => None
      | Some (s1, o1) =>
          match wrun s1 r with
          | None => None
          | Some (s2, o2) => Some (s2, o1 ++ o2)
          end
      end
  end.

(* ---------------------------------------------------------------- lists *)

Lemma nth_upd_same i c l x : nth_error l i = Some x -> nth_error (upd i c l) i = Some c.
Proof. revert l; induction i; destruct l; cbn; intros H; try discriminate; auto. Qed.

Lemma nth_upd_other i j c l : i <> j -> nth_error (upd i c l) j = nth_error l j.
Proof.
  revert j l; induction i; destruct j, l; cbn; intros H; try congruence; auto.
Qed.

Lemma upd_In i c l x : In x (upd i c l) -> x = c \/ In x l.
Proof.
  revert i; induction l; intros i H; [destruct i; inversion H|].
  destruct i; cbn in H; destruct H as [<-|H]; auto.
  - right. right. exact H.
  - right. left. auto.
  - apply IHl in H as [->|H]; auto. right. right. auto.
Qed.

Lemma upd_nth_In i c l j x :
  nth_error (upd i c l) j = Some x -> (j = i /\ x = c) \/ (j <> i /\ nth_error l j = Some x).
Proof.
  destruct (Nat.eq_dec i j) as [<-|N].
  - intros H. left. split; auto.
    destruct (nth_error l i) eqn:E; [rewrite (nth_upd_same _ _ _ _ E) in H; congruence|].
    assert (nth_error (upd i c l) i = None).
    { clear -E. revert l E; induction i; destruct l; cbn; intros; auto; discriminate. }
    congruence.
  - rewrite (nth_upd_other _ _ _ _ N). auto.
Qed.

Lemma client_add_In l x :
  In x (client_add l) -> In x l \/ exists c, (c = unused \/ In c l /\ w_used c = false) /\ x = new_client c.
Proof.
  induction l as [|c r IH]; cbn.
  - intros [<-|[]]. right. exists unused. auto.
  - destruct (w_used c) eqn:U; cbn; intros [<-|H]; auto.
    + apply IH in H as [H|(d & [H|[H1 H2]] & ->)]; auto; right; exists d; auto.
    + right. exists c. auto.
Qed.

Lemma client_add_nth l i c :
  nth_error l i = Some c -> w_used c = true -> nth_error (client_add l) i = Some c.
Proof.
  revert i; induction l as [|d r IH]; destruct i; cbn; intros H U; try discriminate.
  - injection H as ->. rewrite U. reflexivity.
  - destruct (w_used d); cbn; auto.
Qed.

Lemma get_nth s i c : get s i = Some c -> nth_error (w_cl s) i = Some c /\
  w_used c = true /\ w_con c = true /\ w_int c = false.
Proof.
  unfold get. destruct (nth_error (w_cl s) i) as [d|]; [|discriminate].
  destruct (w_used d && w_con d && negb (w_int d)) eqn:E; [|discriminate].
  intros H. injection H as <-. rewrite !andb_true_iff, negb_true_iff in E. intuition.
Qed.

(* ---------------------------------------------------------------- slots *)

(* an unused slot is all zero *)
Definition slots_ok (s : wst) : Prop :=
  forall c, In c (w_cl s) -> w_used c = false -> w_ref c = false /\ w_exp c = 0.

Lemma tail_cl s t0 tc tp bad reopen : w_cl (fst (tail s t0 tc tp bad reopen)) = w_cl s.
Proof.
  unfold tail.
  repeat match goal with |- context [if ?b then _ else _] => destruct b end; reflexivity.
Qed.

Lemma open_cl s t f r : w_cl (fst (open_watchdog s t f r)) = w_cl s.
Proof.
  unfold open_watchdog.
  repeat match goal with |- context [if ?b then _ else _] => destruct b end; try reflexivity.
  destruct r; reflexivity.
Qed.

Lemma wstep_slots s t x s' o : slots_ok s -> wstep s t x = Some (s', o) -> slots_ok s'.
Proof.
  intros I. unfold wstep. destruct (w_done s || (t <? w_now s)); [discriminate|].
  destruct x as [|i b|i e|f r|i| |t0 tc tp bad re]; cbn -[open_watchdog tail]; intros H.
  - injection H as <- <-. intros c Hc U; cbn in *.
    apply client_add_In in Hc as [Hc|(d & _ & ->)]; [auto|discriminate].
  - destruct (get (at_time s t) i) as [c0|] eqn:G; [|discriminate]. injection H as <- <-.
    intros c Hc U; cbn in *. apply upd_In in Hc as [->|Hc]; [discriminate|auto].
  - destruct (get (at_time s t) i) as [c0|] eqn:G; [|discriminate]. injection H as <- <-.
    intros c Hc U; cbn in *. apply upd_In in Hc as [->|Hc]; [discriminate|auto].
  - injection H as H. intros c Hc U.
    replace s' with (fst (open_watchdog (at_time s t) t f r)) in Hc by (rewrite H; reflexivity).
    rewrite open_cl in Hc. cbn in Hc. auto.
  - destruct (get (at_time s t) i) as [c0|] eqn:G; [|discriminate]. injection H as <- <-.
    intros c Hc U; cbn in *. apply upd_In in Hc as [->|Hc]; [|auto].
    apply get_nth in G as (_ & U0 & _). unfold pid_dead in *.
    destruct (w_exp c0 =? 0); [auto|cbn in U; congruence].
  - injection H as <- <-. exact I.
  - destruct ((t <=? t0) && (t0 <=? tc) && (tc <=? tp)); [|discriminate]. injection H as H.
    intros c Hc U.
    replace s' with (fst (tail (at_time s t) t0 tc tp bad re)) in Hc by (rewrite H; reflexivity).
    rewrite tail_cl in Hc. cbn in Hc. auto.
Qed.

Inductive wreach : wst -> Prop :=
| wr_init : wreach winit
| wr_step s t x s' o : wreach s -> wstep s t x = Some (s', o) -> wreach s'.

Lemma wreach_slots s : wreach s -> slots_ok s.
Proof.
  induction 1.
  - intros c [<-|[<-|[]]]; discriminate.
  - eapply wstep_slots; eauto.
Qed.

Lemma wrun_reach s l s' o : wreach s -> wrun s l = Some (s', o) -> wreach s'.
Proof.
  revert s o; induction l as [|[t x] r IH]; cbn; intros s o R H.
  - injection H as <- <-. auto.
  - destruct (wstep s t x) as [[s1 o1]|] eqn:E; [|discriminate].
    destruct (wrun s1 r) as [[s2 o2]|] eqn:E2; [|discriminate]. injection H as <- <-.
    eapply IH; [|exact E2]. eapply wr_step; eauto.
Qed.
