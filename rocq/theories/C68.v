(* C68: at most one instance of a daemon is at work on a machine (lockfile.c, wdmd). *)
From Coq Require Import List Arith Lia Bool.
From Verif Require Import OneDaemon.
Import ListNotations.

Definition at_work (s : dst) (p : nat) : Prop := exists i, d_ph s p = PRun i.

Definition one_at_work (k : dkind) : Prop :=
  forall l s p q, drun k dinit l = Some s -> at_work s p -> at_work s q -> p = q.

(* the full claim: for each of the three daemons *)
Definition C68_statement : Prop :=
  one_at_work sanlock_d /\ one_at_work wdmd_d /\ one_at_work fence_d.

Theorem C68_sanlock_partial : one_at_work sanlock_d.
Proof.
  intros l s p q R [i Hp] [j Hq].
  assert (L : lock_inv s).
  { apply (drun_inv lock_inv sanlock_d) with (l := l) (s := dinit); [|intros ? ? H; discriminate H|exact R].
    intros; eapply lock_step; eauto. }
  assert (P : path_inv s /\ forall q i, d_ph s q <> PUnl i).
  { apply (drun_inv (fun s => path_inv s /\ forall q i, d_ph s q <> PUnl i) sanlock_d) with (l := l) (s := dinit); [| |exact R].
    - intros ? ? ? ? [A B] E. eapply path_step; eauto. reflexivity.
    - split; [intros ? ? H; discriminate H|discriminate]. }
  destruct P as [P _].
  assert (E : Some i = Some j).
  { transitivity (d_path s); [symmetry; apply (P p); now rewrite Hp|apply (P q); now rewrite Hq]. }
  injection E as <-.
  assert (A : d_lock s i = Some p) by (apply L; now rewrite Hp).
  assert (B : d_lock s i = Some q) by (apply L; now rewrite Hq).
  congruence.
Qed.

Theorem C68_wdmd_partial : one_at_work wdmd_d.
Proof.
  intros l s p q R [i Hp] [j Hq].
  assert (S : shm_inv s).
  { apply (drun_inv shm_inv wdmd_d) with (l := l) (s := dinit); [|split; intros; discriminate|exact R].
    intros; eapply shm_step; eauto. reflexivity. }
  apply S; [now rewrite Hp|now rewrite Hq].
Qed.

(* after a wdmd has ended in another way than through its main function, no other one
   gets to work (and to the watchdog device) until the machine is started again *)
Lemma stuck_step s p o s' :
  d_shm s = true -> (forall q, is_run (d_ph s q) = false) -> dstep wdmd_d s p o = Some s' ->
  d_shm s' = true /\ (forall q, is_run (d_ph s' q) = false).
Proof.
  intros H N E.
  assert (K : forall ph s1, is_run ph = false -> d_ph s1 = upd (d_ph s) p ph ->
    d_shm s1 = d_shm s -> d_shm s1 = true /\ (forall q, is_run (d_ph s1 q) = false)).
  { intros ph s1 A B C. rewrite C. split; auto. intros q. rewrite B. unfold upd.
    destruct (q =? p); auto. }
  unfold dstep in E. rewrite H in E.
  destruct o as [| |[]| | | | |]; destruct (d_ph s p) as [|i|i|i|i|i|i|] eqn:P; try discriminate E;
    cbn in E; try (injection E as <-; (eapply K; [|reflexivity|cbn; congruence]; reflexivity)).
  - destruct (d_path s); injection E as <-; (eapply K; [|reflexivity|cbn; congruence]; reflexivity).
  - destruct (d_lock s i); injection E as <-; (eapply K; [|reflexivity|cbn; congruence]; reflexivity).
  - specialize (N p). now rewrite P in N.
Qed.

Theorem C68_wdmd_after_crash l s p s1 l' s' q :
  drun wdmd_d dinit l = Some s -> at_work s p -> dstep wdmd_d s p DCrash = Some s1 ->
  drun wdmd_d s1 l' = Some s' -> ~ at_work s' q.
Proof.
  intros R [i Hp] C R' [j Hq].
  assert (S : shm_inv s).
  { apply (drun_inv shm_inv wdmd_d) with (l := l) (s := dinit); [|split; intros; discriminate|exact R].
    intros; eapply shm_step; eauto. reflexivity. }
  assert (B : d_shm s1 = true /\ forall q, is_run (d_ph s1 q) = false).
  { destruct S as [S1 S2]. unfold dstep in C. rewrite Hp in C. cbn in C. injection C as <-. cbn.
    split; [apply (S1 p); now rewrite Hp|]. intros r. unfold upd.
    destruct (Nat.eqb_spec r p); auto.
    destruct (is_run (d_ph s r)) eqn:Q; auto. destruct n. apply S2; auto. now rewrite Hp. }
  assert (F : d_shm s' = true /\ forall q, is_run (d_ph s' q) = false).
  { eapply (drun_inv (fun s => d_shm s = true /\ forall q, is_run (d_ph s q) = false)); [| |exact R']; auto.
    intros ? ? ? ? [? ?] E. eapply stuck_step; eauto. }
  destruct F as [_ F]. specialize (F q). now rewrite Hq in F.
Qed.

(* fence_sanlockd removes its lock file and has no shared memory object: 1 is opening the
   file while 0 ends, and locks an inode that no path leads to; 2 creates a new file *)
Definition fence_run : list (nat * dop) :=
  [(0, DOpen); (0, DSetlk); (0, DWrite true); (0, DStop);
   (1, DOpen); (0, DUnlink); (0, DEnd);
   (1, DSetlk); (1, DWrite true);
   (2, DOpen); (2, DSetlk); (2, DWrite true)].

Theorem C68_fence_refuted : ~ C68_statement.
Proof.
  intros (_ & _ & H).
  destruct (drun fence_d dinit fence_run) as [s|] eqn:R; [|discriminate].
  assert (A : at_work s 1 /\ at_work s 2).
  { cbn in R. injection R as <-. split; eexists; reflexivity. }
  destruct A as [A B]. specialize (H _ _ _ _ R A B). discriminate.
Qed.

(* nobody is kept out for nothing.  When no process has the file locked and, for wdmd,
   no earlier one left the shared memory object behind, a new process gets to work *)
Theorem C68_can_start k s p :
  d_ph s p = PNew -> (forall i, d_lock s i = None) -> (k_shm k = true -> d_shm s = false) ->
  exists s', drun k s ([(p, DOpen); (p, DSetlk); (p, DWrite true)] ++
                       if k_shm k then [(p, DShm)] else []) = Some s' /\ at_work s' p.
Proof.
  intros N L S. cbn [drun app]. unfold dstep at 1. rewrite N.
  destruct (d_path s) as [i|] eqn:E.
  - unfold dstep at 1. cbn [set_ph d_ph d_lock]. rewrite upd_same, L.
    unfold dstep at 1. cbn [d_ph]. rewrite upd_same.
    destruct (k_shm k) eqn:K; cbn [drun set_ph].
    + unfold dstep. cbn [set_ph d_ph d_shm]. rewrite upd_same, S by auto.
      eexists. split; [reflexivity|]. exists i. cbn. apply upd_same.
    + eexists. split; [reflexivity|]. exists i. cbn. apply upd_same.
  - unfold dstep at 1. cbn [set_ph d_ph d_lock]. rewrite upd_same, L.
    unfold dstep at 1. cbn [d_ph]. rewrite upd_same.
    destruct (k_shm k) eqn:K; cbn [drun set_ph].
    + unfold dstep. cbn [set_ph d_ph d_shm]. rewrite upd_same, S by auto.
      eexists. split; [reflexivity|]. eexists. cbn. apply upd_same.
    + eexists. split; [reflexivity|]. eexists. cbn. apply upd_same.
Qed.

(* a daemon at work, a second one that is refused, and a third one after the first has
   ended *)
Definition turns (k : dkind) : list (nat * dop) :=
  [(0, DOpen); (0, DSetlk); (0, DWrite true)] ++ (if k_shm k then [(0, DShm)] else []) ++
  [(1, DOpen); (1, DSetlk); (0, DStop)] ++ (if k_unlink k then [(0, DUnlink)] else []) ++
  [(0, DEnd); (2, DOpen); (2, DSetlk); (2, DWrite true)] ++ (if k_shm k then [(2, DShm)] else []).

Example C68_nonvacuous :
  option_map (fun s => (d_ph s 0, d_ph s 1, d_ph s 2)) (drun sanlock_d dinit (turns sanlock_d))
  = Some (PDead, PDead, PRun 0) /\
  option_map (fun s => (d_ph s 0, d_ph s 1, d_ph s 2)) (drun wdmd_d dinit (turns wdmd_d))
  = Some (PDead, PDead, PRun 1).
Proof. vm_compute. auto. Qed.

Print Assumptions C68_sanlock_partial.
Print Assumptions C68_wdmd_partial.
Print Assumptions C68_wdmd_after_crash.
Print Assumptions C68_fence_refuted.
Print Assumptions C68_can_start.
