(* Starting and stopping of the daemons: lockfile() (src/lockfile.c:31-99,
   wdmd/main.c:1626-1683, fence_sanlock/fence_sanlockd.c:182-240), setup_shm and
   close_shm of wdmd (wdmd/main.c:1488-1508), and the order of these calls in the main
   functions (src/main.c:1771-1823, wdmd/main.c:1899-1942,
   fence_sanlockd.c:609-612 and 937-940).

   A state of the machine between two boots: the run directory with at most one lock
   file, the fcntl locks, the shared memory object /wdmd, and the processes.

   Simplifications.
   - A process is a number that is not used again.  daemon() has been called before, so
     the process that takes the lock is the one that keeps it.
   - fcntl locks belong to a process and an inode; they go away when the process closes
     the file or ends.  Only the daemons themselves use the file.
   - mkdir, chown, umask and failures of open are left out: they end the process before
     anything is locked. *)
From Coq Require Import List Arith Lia Bool.
Import ListNotations.

(* what distinguishes the three daemons *)
Record dkind := mkKind {
  k_shm : bool;         (* setup_shm between lockfile and the rest *)
  k_unlink : bool }.    (* unlink(lockfile_path) at the end *)

Definition sanlock_d : dkind := mkKind false false.
Definition wdmd_d : dkind := mkKind true true.
Definition fence_d : dkind := mkKind false true.

Inductive phase :=
| PNew                   (* not started, or before open *)
| POpen (i : nat)        (* has opened the file: inode i *)
| PLock (i : nat)        (* has locked it *)
| PShm (i : nat)         (* has written its pid, before shm_open *)
| PRun (i : nat)         (* at work *)
| PUnl (i : nat)         (* before unlink *)
| PExit (i : nat)        (* before the end of main *)
| PDead.

Record dst := mkDst {
  d_path : option nat;          (* the inode the path leads to *)
  d_next : nat;                 (* inodes below have been used *)
  d_lock : nat -> option nat;   (* inode -> process *)
  d_shm : bool;                 (* /wdmd exists *)
  d_ph : nat -> phase }.

Definition upd {A} (f : nat -> A) (n : nat) (x : A) : nat -> A :=
  fun m => if m =? n then x else f m.

(* the end of a process or close(fd): its lock is gone *)
Definition unlock (l : nat -> option nat) (i p : nat) : nat -> option nat :=
  match l i with
  | Some q => if q =? p then upd l i None else l
  | None => l
  end.

Definition inode_of (ph : phase) : option nat :=
  match ph with
  | POpen i | PLock i | PShm i | PRun i | PUnl i | PExit i => Some i
  | PNew | PDead => None
  end.

Inductive dop :=
| DOpen            (* open O_CREAT, lockfile.c:59 *)
| DSetlk           (* fcntl F_SETLK, lockfile.c:71 *)
| DWrite (ok : bool)  (* ftruncate and write, lockfile.c:78-93 *)
| DShm             (* shm_open O_CREAT|O_EXCL, wdmd/main.c:1492 *)
| DStop            (* the end of the main loop, or a failed setup after the above *)
| DUnlink          (* unlink(lockfile_path) *)
| DEnd             (* return from main *)
| DCrash.          (* killed *)

Definition set_ph (s : dst) (p : nat) (ph : phase) : dst :=
  mkDst (d_path s) (d_next s) (d_lock s) (d_shm s) (upd (d_ph s) p ph).

Definition dies (s : dst) (p : nat) (i : nat) : dst :=
  mkDst (d_path s) (d_next s) (unlock (d_lock s) i p) (d_shm s) (upd (d_ph s) p PDead).

Definition dstep (k : dkind) (s : dst) (p : nat) (o : dop) : option dst :=
  match o, d_ph s p with
  | DOpen, PNew =>
      match d_path s with
      | Some i => Some (set_ph s p (POpen i))
      | None =>
          Some (mkDst (Some (d_next s)) (S (d_next s)) (d_lock s) (d_shm s)
                  (upd (d_ph s) p (POpen (d_next s))))
      end
  | DSetlk, POpen i =>
      match d_lock s i with
      | None => Some (mkDst (d_path s) (d_next s) (upd (d_lock s) i (Some p)) (d_shm s)
                        (upd (d_ph s) p (PLock i)))
      | Some _ => Some (dies s p i)
      end
  | DWrite true, PLock i =>
      Some (set_ph s p (if k_shm k then PShm i else PRun i))
  | DWrite false, PLock i => Some (dies s p i)
  | DShm, PShm i =>
      if d_shm s then Some (set_ph s p (if k_unlink k then PUnl i else PExit i))
      else Some (mkDst (d_path s) (d_next s) (d_lock s) true (upd (d_ph s) p (PRun i)))
  | DStop, PRun i =>
      Some (mkDst (d_path s) (d_next s) (d_lock s) (if k_shm k then false else d_shm s)
              (upd (d_ph s) p (if k_unlink k then PUnl i else PExit i)))
  | DUnlink, PUnl i =>
      Some (mkDst None (d_next s) (d_lock s) (d_shm s) (upd (d_ph s) p (PExit i)))
  | DEnd, PExit i => Some (dies s p i)
  | DCrash, ph =>
      match inode_of ph with
      | Some i => Some (dies s p i)
      | None => None
      end
  | _, _ => None
  end.

(* after the boot *)
Definition dinit : dst := mkDst None 0 (fun _ => None) false (fun _ => PNew).

Fixpoint drun (k : dkind) (s : dst) (l : list (nat * dop)) : option dst :=
  match l with
  | [] => Some s
  | (p, o) :: r =>
      match dstep k s p o with
      | None => None
      | Some s' => drun k s' r
      end
  end.

Lemma upd_same A (f : nat -> A) n x : upd f n x n = x.
Proof. unfold upd. now rewrite Nat.eqb_refl. Qed.

Lemma upd_other A (f : nat -> A) n m x : m <> n -> upd f n x m = f m.
Proof. unfold upd. intros H. destruct (Nat.eqb_spec m n); congruence. Qed.

Lemma unlock_some l i p j q : unlock l i p j = Some q -> l j = Some q.
Proof.
  unfold unlock. destruct (l i) as [r|] eqn:E; auto.
  destruct (Nat.eqb_spec r p); auto. unfold upd. destruct (Nat.eqb_spec j i); congruence.
Qed.

Lemma unlock_other l i p j q : l j = Some q -> q <> p -> unlock l i p j = Some q.
Proof.
  unfold unlock. intros H N. destruct (l i) as [r|] eqn:E; auto.
  destruct (Nat.eqb_spec r p); auto. unfold upd. destruct (Nat.eqb_spec j i); congruence.
Qed.

(* a process in one of these phases has the lock *)
Definition locked (ph : phase) : option nat :=
  match ph with
  | PLock i | PShm i | PRun i | PUnl i | PExit i => Some i
  | _ => None
  end.

Definition lock_inv (s : dst) : Prop :=
  forall p i, locked (d_ph s p) = Some i -> d_lock s i = Some p.

Lemma lock_step k s p o s' : lock_inv s -> dstep k s p o = Some s' -> lock_inv s'.
Proof.
  intros I E q j. specialize (I q) as Iq.
  assert (D : forall i s1, s1 = dies s p i -> locked (d_ph s1 q) = Some j -> d_lock s1 j = Some q).
  { intros i s1 ->. cbn. unfold upd. destruct (Nat.eqb_spec q p); [discriminate|].
    intros L. apply unlock_other; auto. }
  assert (K : forall ph, (forall i, locked ph = Some i -> locked (d_ph s p) = Some i) ->
     locked (upd (d_ph s) p ph q) = Some j -> d_lock s j = Some q).
  { intros ph H. unfold upd. destruct (Nat.eqb_spec q p); auto. subst. auto. }
  unfold dstep in E.
  destruct o as [| |[]| | | | |]; destruct (d_ph s p) as [|i|i|i|i|i|i|] eqn:P; try discriminate E;
    cbn in E.
  - destruct (d_path s); injection E as <-; cbn; apply K; discriminate.
  - destruct (d_lock s i) eqn:L; injection E as <-; [apply (D i); auto|]. cbn. unfold upd.
    destruct (Nat.eqb_spec q p) as [->|N].
    + intros [= <-]. now rewrite Nat.eqb_refl.
    + intros H. destruct (Nat.eqb_spec j i); [|auto]. subst. specialize (Iq _ H). congruence.
  - injection E as <-. cbn. apply K. intros x. destruct (k_shm k); auto.
  - injection E as <-. apply (D i); auto.
  - destruct (d_shm s); injection E as <-; cbn; apply K; auto.
    intros x. destruct (k_unlink k); auto.
  - injection E as <-. cbn. apply K. intros x. destruct (k_unlink k); auto.
  - injection E as <-. cbn. apply K. auto.
  - injection E as <-. apply (D i); auto.
  - injection E as <-. apply (D i); auto.
  - injection E as <-. apply (D i); auto.
  - injection E as <-. apply (D i); auto.
  - injection E as <-. apply (D i); auto.
  - injection E as <-. apply (D i); auto.
  - injection E as <-. apply (D i); auto.
Qed.

Lemma drun_inv (P : dst -> Prop) k :
  (forall s p o s', P s -> dstep k s p o = Some s' -> P s') ->
  forall l s s', P s -> drun k s l = Some s' -> P s'.
Proof.
  intros H. induction l as [|[p o] l IH]; cbn; intros s s' I E; [congruence|].
  destruct (dstep k s p o) eqn:D; [|discriminate]. eauto.
Qed.

(* without unlink the path keeps its inode *)
Definition path_inv (s : dst) : Prop :=
  forall p i, inode_of (d_ph s p) = Some i -> d_path s = Some i.

Lemma path_step k s p o s' : k_unlink k = false ->
  (forall q i, d_ph s q <> PUnl i) -> path_inv s -> dstep k s p o = Some s' ->
  path_inv s' /\ (forall q i, d_ph s' q <> PUnl i).
Proof.
  intros U N I E.
  assert (K : forall ph, (forall i, inode_of ph = Some i -> d_path s = Some i) ->
    (forall i, ph <> PUnl i) -> forall s1, d_path s1 = d_path s -> d_ph s1 = upd (d_ph s) p ph ->
    path_inv s1 /\ (forall q i, d_ph s1 q <> PUnl i)).
  { intros ph H M s1 E1 E2. split; intros q i; rewrite ?E1, E2; unfold upd;
      destruct (Nat.eqb_spec q p); auto. eauto. }
  specialize (I p) as Ip.
  unfold dstep in E. rewrite U in E.
  destruct o as [| |[]| | | | |]; destruct (d_ph s p) as [|i|i|i|i|i|i|] eqn:P; try discriminate E;
    cbn in E, Ip.
  - destruct (d_path s) as [i|] eqn:Pa; injection E as <-.
    + eapply K; try reflexivity; cbn; congruence.
    + split; intros q i; cbn; unfold upd; destruct (Nat.eqb_spec q p); cbn;
        try congruence; auto. intros H. apply I in H. congruence.
  - destruct (d_lock s i) eqn:L; injection E as <-; (eapply K; try reflexivity; cbn; auto; discriminate).
  - injection E as <-; (eapply K; try reflexivity; destruct (k_shm k); cbn; auto; discriminate).
  - injection E as <-; (eapply K; try reflexivity; cbn; auto; discriminate).
  - destruct (d_shm s); injection E as <-; (eapply K; try reflexivity; cbn; auto; discriminate).
  - injection E as <-; (eapply K; try reflexivity; cbn; auto; discriminate).
  - exfalso. eapply N; eauto.
  - injection E as <-; (eapply K; try reflexivity; cbn; auto; discriminate).
  - injection E as <-; (eapply K; try reflexivity; cbn; auto; discriminate).
  - injection E as <-; (eapply K; try reflexivity; cbn; auto; discriminate).
  - injection E as <-; (eapply K; try reflexivity; cbn; auto; discriminate).
  - injection E as <-; (eapply K; try reflexivity; cbn; auto; discriminate).
  - injection E as <-; (eapply K; try reflexivity; cbn; auto; discriminate).
  - injection E as <-; (eapply K; try reflexivity; cbn; auto; discriminate).
Qed.

(* with the shared memory object: whoever is at work has created it *)
Definition is_run (ph : phase) : bool := match ph with PRun _ => true | _ => false end.

Definition shm_inv (s : dst) : Prop :=
  (forall p, is_run (d_ph s p) = true -> d_shm s = true) /\
  (forall p q, is_run (d_ph s p) = true -> is_run (d_ph s q) = true -> p = q).

Lemma shm_step k s p o s' : k_shm k = true -> shm_inv s -> dstep k s p o = Some s' -> shm_inv s'.
Proof.
  intros U [I J] E.
  assert (K : forall ph s1, is_run ph = false -> d_ph s1 = upd (d_ph s) p ph ->
    d_shm s1 = d_shm s -> shm_inv s1).
  { intros ph s1 H E1 E2. split.
    - intros q. rewrite E1, E2. unfold upd. destruct (Nat.eqb_spec q p); [congruence|]. apply I.
    - intros q r. rewrite E1. unfold upd.
      destruct (Nat.eqb_spec q p), (Nat.eqb_spec r p); try congruence. apply J. }
  unfold dstep in E. rewrite U in E.
  destruct o as [| |[]| | | | |]; destruct (d_ph s p) as [|i|i|i|i|i|i|] eqn:P; try discriminate E;
    cbn in E; try (injection E as <-; eapply K; try reflexivity; reflexivity).
  - destruct (d_path s); injection E as <-; eapply K; try reflexivity; reflexivity.
  - destruct (d_lock s i); injection E as <-; eapply K; try reflexivity; reflexivity.
  - destruct (d_shm s) eqn:S; injection E as <-.
    + eapply K with (ph := if k_unlink k then PUnl i else PExit i); try reflexivity.
      destruct (k_unlink k); auto. cbn. auto.
    + assert (N : forall q, is_run (d_ph s q) = false).
      { intros q. destruct (is_run (d_ph s q)) eqn:R; auto. apply I in R. congruence. }
      split; cbn; [auto|]. intros q r. unfold upd.
      destruct (Nat.eqb_spec q p), (Nat.eqb_spec r p); try congruence; rewrite ?N; discriminate.
  - injection E as <-.
    assert (N : forall q, q <> p -> is_run (d_ph s q) = false).
    { intros q H. destruct (is_run (d_ph s q)) eqn:R; auto. exfalso. apply H, J; auto.
      now rewrite P. }
    assert (M : forall q, is_run (upd (d_ph s) p (if k_unlink k then PUnl i else PExit i) q) = false).
    { intros q. unfold upd. destruct (Nat.eqb_spec q p); [destruct (k_unlink k); auto|auto]. }
    split; cbn; intros q; rewrite M; discriminate.
Qed.
