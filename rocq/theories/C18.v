(* C18: generations of a host id increase. *)
From Coq Require Import List NArith ZArith Lia Bool Arith ZifyBool ZifyN.
From Verif Require Import Timeouts Delta DeltaProof C17.
Import ListNotations.
Open Scope N_scope.

(* ---- specification ---- *)
(* in the list of successful joins, newest first, every join has a generation larger
   than all joins before it *)
Definition increasing (succ : list (N * N)) : Prop :=
  forall newer i g older, succ = newer ++ (i, g) :: older -> forall j g', In (j, g') older -> g' < g.

Definition C18_statement : Prop :=
  forall c r t s, within_own_timeout c -> n_name r = 0 ->
    dreach c r t s -> increasing (d_succ s).

Lemma gsorted_increasing l : gsorted l -> increasing l.
Proof.
  intros G. induction G as [|i0 g0 l S G IH]; intros newer i g older E j g' Hin.
  - destruct newer; discriminate E.
  - destruct newer as [|x newer]; cbn in E.
    + injection E as -> -> ->. exact (S _ _ Hin).
    + injection E as _ E. exact (IH _ _ _ _ E _ _ Hin).
Qed.

(* with a common bound on disk operations: across releases, crashes, takeovers,
   failed joins, failed renewals, for any number of hosts *)
Theorem C18_generations_increase_partial :
  forall c r t s, cfg_ok c -> rec_ok c r -> dreach c r t s -> increasing (d_succ s).
Proof. intros c r t s O R H. apply gsorted_increasing. apply (I_M3 _ _ (reach_inv c r t s O R H)). Qed.

(* the list is the list of joins: a host that is past its join is in it with the
   generation it believes to have *)
Theorem C18_joined_is_listed :
  forall c r t s i l, dreach c r t s -> joined (d_h s i) = Some l -> In (i, n_gen l) (d_succ s).
Proof.
  intros c r t s i l H J. destruct (reach_ginv c r t s H) as [_ G]. destruct (G i) as (G1 & _).
  exact (proj2 (G1 _ J)).
Qed.

(* the generation on disk never falls below that of a successful join, so that of
   the next join is larger as well *)
Theorem C18_disk_generation_partial :
  forall c r t s j g, cfg_ok c -> rec_ok c r -> dreach c r t s -> In (j, g) (d_succ s) -> g <= n_gen (d_disk s).
Proof. intros c r t s j g O R H Hin. exact (I_M1 _ _ (reach_inv c r t s O R H) j g Hin). Qed.

(* without the common bound: the race of C17 gives both hosts generation 5 *)
Theorem C18_refuted : ~ C18_statement.
Proof.
  intros H.
  assert (exists s, drun (two 10 30) (dinit (mkRc 0 4 0 10) 1000) race = Some s /\ d_succ s = [(2, 5); (1, 5)])
    as (s & E & S).
  { apply (obs_run d_succ). vm_compute. reflexivity. }
  assert (R : dreach (two 10 30) (mkRc 0 4 0 10) 1000 s) by (eapply drun_reach; [apply dreach_init|exact E]).
  assert (W : within_own_timeout (two 10 30)).
  { split; [cbn; lia|]. intros i [<-|[<-|[]]]; cbn; lia. }
  assert (X : 5 < 5).
  { eapply (H _ (mkRc 0 4 0 10) _ _ W eq_refl R [] 2 5 [(1, 5)]); [exact S|left; reflexivity]. }
  lia.
Qed.

(* joins by a takeover after a crash, and after a release *)
Definition rejoin : list ev :=
  ticks 20 ++ [ERelease 1] ++ op 1 ++ [EStart 2] ++ op 2 ++ op 2 ++ ticks 20 ++ [EWake 2] ++ op 2.
Example C18_nonvacuous :
  cfg_ok (two 10 10) /\ rec_ok (two 10 10) (mkRc 0 4 0 10) /\
  exists s, drun (two 10 10) (dinit (mkRc 0 4 0 10) 1000) (race2 ++ takeover ++ rejoin) = Some s /\
     d_succ s = [(2, 7); (1, 6); (2, 5)] /\ joined (d_h s 2) = Some (d_disk s).
Proof.
  destruct C17_nonvacuous as (A & B & _). split; [exact A|]. split; [exact B|].
  destruct (obs_run (fun s => (d_succ s, joined (d_h s 2), d_disk s)) (two 10 10) (dinit (mkRc 0 4 0 10) 1000)
              (race2 ++ takeover ++ rejoin) ([(2, 7); (1, 6); (2, 5)], Some (mkRc 2 7 5 10), mkRc 2 7 5 10)) as (s & E & F).
  - vm_compute. reflexivity.
  - exists s. injection F as F1 F2 F3. rewrite F1, F2, F3. auto.
Qed.

Print Assumptions C18_generations_increase_partial.
Print Assumptions C18_joined_is_listed.
Print Assumptions C18_disk_generation_partial.
Print Assumptions C18_refuted.
