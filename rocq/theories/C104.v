(* C104: the daemon serves at the place its run directory names, only when it is set up, and as the user it was given. *)
From Coq Require Import List String Ascii ZArith Bool Arith Lia.
From Verif Require Import DaemonStart.
Import ListNotations.
Open Scope string_scope.
Open Scope list_scope.
Open Scope Z_scope.

(* ---- where ---- *)
(* the run directory is the one the variable names, else the usual one *)
Theorem C104_dir : forall e, (forall d, e "SANLOCK_RUN_DIR" = Some d -> daemon_dir e = d) /\ (e "SANLOCK_RUN_DIR" = None -> daemon_dir e = "/run/sanlock").
Proof. intros e. unfold daemon_dir, env_get, RUN_DIR. split; [intros d ->; reflexivity|intros ->; reflexivity]. Qed.
Print Assumptions C104_dir.
(* a client whose environment names the same directory connects to the path the daemon binds *)
Theorem C104_meet : forall ed ec, ed "SANLOCK_RUN_DIR" = ec "SANLOCK_RUN_DIR" -> snd (client_path None ec) = socket_path (daemon_dir ed).
Proof. intros ed ec H. unfold client_path, daemon_dir, env_get, RUN_DIR. cbn [snd]. rewrite H. reflexivity. Qed.
Print Assumptions C104_meet.
(* and every later call of that process goes to the same path, whatever becomes of its environment *)
Theorem C104_same : forall e e' c p c' p', client_path None e = (c, p) -> client_path c e' = (c', p') -> c' = c /\ p' = p.
Proof. intros e e' c p c' p' H H'. unfold client_path in *. injection H as <- <-. injection H' as <- <-. auto. Qed.
Print Assumptions C104_same.

Lemma len_as : forall a b, String.length (a ++ b)%string = (String.length a + String.length b)%nat.
Proof. induction a; intros b; cbn; [reflexivity|]. rewrite IHa. reflexivity. Qed.
Lemma sub_all : forall s n, (String.length s <= n)%nat -> substring 0 n s = s.
Proof. induction s as [|c s IH]; intros [|n] H; cbn in *; try reflexivity; try lia. rewrite IH by lia. reflexivity. Qed.
Lemma app_inj : forall a b t, (a ++ t)%string = (b ++ t)%string -> a = b.
Proof.
  induction a as [|c a IH]; intros [|d b] t H; [reflexivity| | |].
  - exfalso. apply (f_equal String.length) in H. cbn in H. rewrite len_as in H. lia.
  - exfalso. apply (f_equal String.length) in H. cbn in H. rewrite len_as in H. lia.
  - cbn in H. injection H as -> H. f_equal. exact (IH _ _ H).
Qed.
(* the socket of a directory of at most 93 characters lies in it; two such have two sockets *)
Theorem C104_place : forall d, (String.length d <= 93)%nat -> socket_path d = (d ++ "/sanlock.sock")%string.
Proof. intros d H. unfold socket_path. apply sub_all. rewrite len_as. cbn. lia. Qed.
Print Assumptions C104_place.
Theorem C104_distinct : forall d d', (String.length d <= 93)%nat -> (String.length d' <= 93)%nat -> socket_path d = socket_path d' -> d = d'.
Proof. intros d d' H H' E. rewrite !C104_place in E by assumption. exact (app_inj _ _ _ E). Qed.
Print Assumptions C104_distinct.
(* longer ones can share one socket, though not the lock file: the second daemon takes the socket away from the first *)
Fixpoint xs (n : nat) : string := match n with O => "" | S n => String "x" (xs n) end.
Theorem C104_long_refuted : exists d d', lock_path d <> lock_path d' /\ socket_path d = socket_path d'.
Proof. exists ("/" ++ xs 105 ++ "a")%string, ("/" ++ xs 105 ++ "b")%string. split; [intros H; vm_compute in H; discriminate|vm_compute; reflexivity]. Qed.
Print Assumptions C104_long_refuted.

(* unprivileged exactly when the variable is there and is not 1 *)
Theorem C104_privileged : forall e, daemon_priv e = false <-> exists v, e "SANLOCK_PRIVILEGED" = Some v /\ v <> "1".
Proof.
  intros e. unfold daemon_priv, env_get_bool, PRIVILEGED. destruct (e "SANLOCK_PRIVILEGED") as [v|]; split.
  - intros H. exists v. split; [reflexivity|]. apply String.eqb_neq. exact H.
  - intros (w & E & N). injection E as ->. apply String.eqb_neq. exact N.
  - discriminate.
  - intros (w & E & _). discriminate.
Qed.
Print Assumptions C104_privileged.

(* ---- when ---- *)
(* x is called, and called before the first y *)
Definition before (x y : call) (tr : list call) : Prop := forall p q, tr = p ++ y :: q -> In x p.

Definition quiet (y : call) (s : step) : Prop := fst s <> y /\ match snd s with Some (cl, _) => ~ In y cl | None => True end.
Lemma go_in : forall R a b fin y p q, (forall s, In s a -> quiet y s) -> fst (go R (a ++ b) fin) = p ++ y :: q ->
  (forall c f, In (c, Some f) a -> 0 <= R c) /\ (forall c f, In (c, f) a -> In c p).
Proof.
  intros R a b fin y. induction a as [|[c f] a IH]; intros p q Q H; [split; intros ? ? []|].
  destruct (Q (c, f) (or_introl eq_refl)) as [Nc Ncl]. cbn [fst snd] in Nc, Ncl. assert (Qa : forall s, In s a -> quiet y s) by (intros; apply Q; right; assumption).
  cbn [app go] in H. destruct p as [|c0 p]; [exfalso; destruct f as [[cl e]|]; [destruct (R c <? 0)|]; cbn in H; injection H as E _; congruence|].
  destruct f as [[cl e]|].
  - destruct (Z.ltb_spec (R c) 0) as [L | L].
    + exfalso. cbn in H. injection H as _ E. apply Ncl. rewrite E. apply in_or_app. right. left. reflexivity.
    + cbn in H. injection H as <- E. destruct (IH p q Qa E) as [A B]. split.
      * intros c1 f1 [E1 | I1]; [injection E1 as <- _; exact L|exact (A c1 f1 I1)].
      * intros c1 f1 [E1 | I1]; [injection E1 as <- _; left; reflexivity|right; exact (B c1 f1 I1)].
  - cbn in H. injection H as <- E. destruct (IH p q Qa E) as [A B]. split.
    + intros c1 f1 [E1 | I1]; [discriminate|exact (A c1 f1 I1)].
    + intros c1 f1 [E1 | I1]; [injection E1 as <- _; left; reflexivity|right; exact (B c1 f1 I1)].
Qed.
Ltac quiet := let s := fresh in let H := fresh in intros s H; cbn in H; repeat (destruct H as [<- | H]; [split; [discriminate|cbn; try exact I; intuition discriminate]|]); destruct H.
Lemma split_at : forall (y : call) l, In y l -> exists p q, l = p ++ y :: q.
Proof. intros y l H. apply in_split in H. exact H. Qed.

(* the main loop runs only with the lock file held, the socket bound, its mode and owner set, listening, and with the
   eventfd; all of that happened before *)
Definition needed : list call := [Alloc; AddHelper; Signals; LockFile; Pool; Socket; Bind; Chmod; Chown; Listen; AddListener; Efd].
Theorem C104_served : forall debug priv users R c, In MainLoop (fst (do_daemon debug priv users R)) -> In c needed -> 0 <= R c /\ before c MainLoop (fst (do_daemon debug priv users R)).
Proof.
  intros debug priv users R c H I. unfold do_daemon in *. set (st := before_lock debug priv R ++ drop priv users ++ listener R) in *.
  assert (Q : forall s, In s st -> quiet MainLoop s) by (unfold st; destruct debug, priv, users; quiet).
  assert (M : exists f, In (c, Some f) st).
  { unfold st. cbn [needed In] in I. destruct debug, priv, users; cbn; repeat (destruct I as [<- | I]; [eexists; intuition|]); destruct I. }
  destruct M as [f M]. rewrite <- (app_nil_r st) in H |- *. split.
  - destruct (split_at _ _ H) as (p & q & E). exact (proj1 (go_in R st [] served MainLoop p q Q E) c f M).
  - intros p q E. exact (proj2 (go_in R st [] served MainLoop p q Q E) c (Some f) M).
Qed.
Print Assumptions C104_served.

(* a daemon that does not get the lock file leaves the socket alone *)
Theorem C104_lock : forall debug priv users R y, In y [UnlinkSock; Bind; Chmod; Chown] -> In y (fst (do_daemon debug priv users R)) -> 0 <= R LockFile /\ before LockFile y (fst (do_daemon debug priv users R)).
Proof.
  intros debug priv users R y Y H. unfold do_daemon in *. set (bs := drop priv users ++ listener R) in *.
  assert (Q : forall s, In s (before_lock debug priv R) -> quiet y s) by (cbn in Y; destruct Y as [<- | [<- | [<- | [<- | []]]]]; destruct debug, priv; quiet).
  assert (M : In (LockFile, Some ([], Return (R LockFile))) (before_lock debug priv R)) by (destruct debug, priv; cbn; intuition).
  split.
  - destruct (split_at _ _ H) as (p & q & E). exact (proj1 (go_in R _ _ _ _ _ _ Q E) _ _ M).
  - intros p q E. exact (proj2 (go_in R _ _ _ _ _ _ Q E) _ _ M).
Qed.
Print Assumptions C104_lock.

(* the change of user is tried before the socket is made, after the lock file *)
Theorem C104_user_partial : forall debug R y, In y [UnlinkSock; Bind; Chmod; Chown; MainLoop] ->
  before Setgid y (fst (do_daemon debug true true R)) /\ before Setuid y (fst (do_daemon debug true true R)).
Proof.
  intros debug R y Y. unfold do_daemon. rewrite app_assoc.
  assert (Q : forall s, In s (before_lock debug true R ++ drop true true) -> quiet y s) by (cbn in Y; destruct Y as [<- | [<- | [<- | [<- | [<- | []]]]]]; destruct debug; quiet).
  split; intros p q E; apply (proj2 (go_in R _ _ _ _ _ _ Q E) _ None); destruct debug; cbn; intuition.
Qed.
Print Assumptions C104_user_partial.

(* ---- how it ends ---- *)
(* once it has the lock file it ends by closing it *)
Definition ends_closed (s : step) : Prop := match snd s with Some (cl, _) => exists l, cl = l ++ [CloseLock] | None => True end.
Lemma go_closed : forall R l fin, (forall s, In s l -> ends_closed s) -> (exists t, fst fin = t ++ [CloseLock]) -> exists t, fst (go R l fin) = t ++ [CloseLock].
Proof.
  intros R l fin. induction l as [|[c f] l IH]; intros Q F; [exact F|]. destruct (IH (fun s I => Q s (or_intror I)) F) as [t E]. cbn [go]. destruct f as [[cl e]|].
  - destruct (R c <? 0); [destruct (Q _ (or_introl eq_refl)) as [t' E']; exists (c :: t'); cbn; rewrite E'; reflexivity|]. exists (c :: t). cbn. rewrite E. reflexivity.
  - exists (c :: t). cbn. rewrite E. reflexivity.
Qed.
Lemma go_tail : forall R a b fin y, (forall s, In s a -> quiet y s) -> In y (fst (go R (a ++ b) fin)) -> exists p, fst (go R (a ++ b) fin) = p ++ fst (go R b fin).
Proof.
  intros R a b fin y. induction a as [|[c f] a IH]; intros Q H; [exists []; reflexivity|]. destruct (Q (c, f) (or_introl eq_refl)) as [Nc Ncl]. cbn [fst snd] in Nc, Ncl.
  assert (Qa : forall s, In s a -> quiet y s) by (intros; apply Q; right; assumption). cbn [app go] in *. destruct f as [[cl e]|].
  - destruct (R c <? 0); [exfalso; destruct H as [H | H]; [exact (Nc H)|exact (Ncl H)]|]. cbn [fst] in *. destruct H as [H | H]; [exfalso; exact (Nc H)|]. destruct (IH Qa H) as [p E]. exists (c :: p). rewrite E. reflexivity.
  - cbn [fst] in *. destruct H as [H | H]; [exfalso; exact (Nc H)|]. destruct (IH Qa H) as [p E]. exists (c :: p). rewrite E. reflexivity.
Qed.
Theorem C104_closed : forall debug priv users R, In Pool (fst (do_daemon debug priv users R)) -> exists t, fst (do_daemon debug priv users R) = t ++ [CloseLock].
Proof.
  intros debug priv users R H. unfold do_daemon in *. rewrite app_assoc in *.
  assert (Q : forall s, In s (before_lock debug priv R ++ drop priv users) -> quiet Pool s) by (destruct debug, priv, users; quiet).
  destruct (go_tail R _ _ _ _ Q H) as [p E]. rewrite E. destruct (go_closed R (listener R) served) as [t T].
  - intros s I. cbn in I. repeat (destruct I as [<- | I]; [cbn; first [exact Logic.I | exists []; reflexivity | exists [PoolFree]; reflexivity | exists [CloseSock; PoolFree]; reflexivity]|]). destruct I.
  - exists [MainLoop; CloseTokens; PoolFree]. reflexivity.
  - exists (p ++ t). rewrite T, app_assoc. reflexivity.
Qed.
Print Assumptions C104_closed.

(* ---- what is not so ---- *)
Definition only (c : call) (x : call) : Z := match c, x with Setuid, Setuid => -1 | Tokens, Tokens => -1 | Efd, Efd => -1 | AddHelper, AddHelper => -1 | Helper, Helper => -1 | _, _ => 0 end.
(* the user cannot be changed: the daemon serves as root *)
Theorem C104_user_refuted : exists R, R Setuid < 0 /\ In MainLoop (fst (do_daemon true true true R)).
Proof. exists (only Setuid). split; [reflexivity|]. vm_compute. tauto. Qed.
Print Assumptions C104_user_refuted.
(* the thread that releases leases cannot be made: the daemon serves without it, and in the end joins it *)
Theorem C104_tokens_refuted : exists R, R Tokens < 0 /\ In MainLoop (fst (do_daemon true true true R)) /\ In CloseTokens (fst (do_daemon true true true R)).
Proof. exists (only Tokens). split; [reflexivity|]. vm_compute. tauto. Qed.
Print Assumptions C104_tokens_refuted.
(* no eventfd, or no place for the helper: it ends without having served, and reports success *)
Theorem C104_exit_refuted : exists R R', (R Efd < 0 /\ ~ In MainLoop (fst (do_daemon true true true R)) /\ snd (do_daemon true true true R) = Return 0) /\
  (R' AddHelper < 0 /\ ~ In MainLoop (fst (do_daemon true true true R')) /\ snd (do_daemon true true true R') = Return 0).
Proof. exists (only Efd), (only AddHelper). split; (split; [reflexivity|]; split; [vm_compute; intuition discriminate|reflexivity]). Qed.
Print Assumptions C104_exit_refuted.

(* what a return of success does tell: no other call that has to succeed failed *)
Definition ok_end (s : step) (R : call -> Z) : Prop := match snd s with Some (_, e) => R (fst s) < 0 -> e = Return 0 -> fst s = Efd \/ fst s = AddHelper | None => True end.
Lemma go_success : forall R l fin, (forall s, In s l -> ok_end s R) -> snd (go R l fin) = Return 0 -> (exists c, In c [Efd; AddHelper] /\ R c < 0) \/ (forall c f, In (c, Some f) l -> 0 <= R c).
Proof.
  intros R l fin. induction l as [|[c f] l IH]; intros Q H; [right; intros ? ? []|]. specialize (IH (fun s I => Q s (or_intror I))). pose proof (Q _ (or_introl eq_refl)) as Q0. cbn [go] in H. destruct f as [[cl e]|].
  - destruct (Z.ltb_spec (R c) 0) as [L | L].
    + left. exists c. cbn [snd] in H. cbn [ok_end snd fst] in Q0. destruct (Q0 L H) as [-> | ->]; cbn; tauto.
    + destruct (IH H) as [X | X]; [left; exact X|]. right. intros c1 f1 [E | I]; [injection E as <- _; exact L|exact (X c1 f1 I)].
  - destruct (IH H) as [X | X]; [left; exact X|]. right. intros c1 f1 [E | I]; [discriminate|exact (X c1 f1 I)].
Qed.
Theorem C104_exit_partial : forall debug priv users R c, R Efd >= 0 -> R AddHelper >= 0 -> snd (do_daemon debug priv users R) = Return 0 -> In c needed -> 0 <= R c.
Proof.
  intros debug priv users R c E1 E2 H I. unfold do_daemon in H. destruct (fun Q => go_success R _ _ Q H) as [(x & X & L) | X].
  - intros s J. unfold ok_end. destruct debug, priv, users; cbn in J;
      repeat (destruct J as [<- | J]; [cbn; try exact Logic.I; intros L E; first [left; reflexivity | right; reflexivity | discriminate | injection E as E; exfalso; lia]|]); destruct J.
  - cbn in X. destruct X as [<- | [<- | []]]; lia.
  - cbn [needed In] in I. destruct debug, priv, users; cbn in X; repeat (destruct I as [<- | I]; [eapply X; intuition|]); destruct I.
Qed.
Print Assumptions C104_exit_partial.

Example C104_nonvacuous :
  In MainLoop (fst (do_daemon false true true (fun _ => 0))) /\ snd (do_daemon false true true (fun _ => 0)) = Return 0 /\
  snd (client_path None (fun _ => None)) = "/run/sanlock/sanlock.sock" /\
  snd (do_daemon true false false (fun c => match c with LockFile => -1 | _ => 0 end)) = Return (-1).
Proof. vm_compute. tauto. Qed.
