(* C43: the resource owner test is exact. *)
From Coq Require Import List NArith ZArith Lia Bool.
From Verif Require Import Owners.
Import ListNotations.
Open Scope N_scope.

(* specification: a listed host is the same incarnation as the owner and is
   neither free nor dead (flag values 2 and 5 in the low four bits) *)
Definition in_use_by (o h : host) : Prop :=
  h_id h = h_id o /\ h_gen h = h_gen o /\
  (h_flags h) mod 16 <> 2 /\ (h_flags h) mod 16 <> 5.

(* inputs the function rejects: an owner newer than its host entry, or a host
   entry with an undefined state *)
Definition malformed (o h : host) : Prop :=
  h_id h = h_id o /\
  (h_gen h < h_gen o \/ (h_gen h = h_gen o /\ ~ (1 <= (h_flags h) mod 16 <= 5))).

Lemma mask_mod f : N.land f SANLK_HOST_MASK = f mod 16.
Proof. change SANLK_HOST_MASK with (N.ones 4). rewrite N.land_ones. reflexivity. Qed.

Lemma find_unique o hosts h :
  NoDup (map h_id hosts) -> In h hosts -> h_id h = h_id o ->
  find (fun h => h_id o =? h_id h) hosts = Some h.
Proof.
  induction hosts as [|x r IH]; [intros _ []|]. cbn [map find In].
  intros ND. apply NoDup_cons_iff in ND. destruct ND as [NI ND]. intros [->|I] E.
  - rewrite E, N.eqb_refl. reflexivity.
  - destruct (h_id o =? h_id x) eqn:F; [|auto].
    apply N.eqb_eq in F. exfalso. apply NI. rewrite <- F, <- E. apply in_map. auto.
Qed.

Ltac flags :=
  unfold SANLK_HOST_FREE, SANLK_HOST_DEAD, SANLK_HOST_LIVE, SANLK_HOST_FAIL, SANLK_HOST_UNKNOWN in *.

Lemma test_owner_spec o hosts :
  NoDup (map h_id hosts) ->
  match test_owner o hosts with
  | None => exists h, In h hosts /\ malformed o h
  | Some b => (forall h, In h hosts -> ~ malformed o h) /\
              (b = true <-> exists h, In h hosts /\ in_use_by o h)
  end.
Proof.
  intros ND. unfold test_owner.
  destruct find as [h|] eqn:F.
  - pose proof (find_some _ _ F) as [I E]. apply N.eqb_eq in E.
    assert (U : forall h', In h' hosts -> h_id h' = h_id o -> h' = h).
    { intros h' I' E'. rewrite (find_unique o hosts h' ND I' E') in F. congruence. }
    rewrite mask_mod. pose proof (N.mod_lt (h_flags h) 16 ltac:(lia)) as ML.
    destruct (h_gen o <? h_gen h) eqn:G1.
    { apply N.ltb_lt in G1. split.
      - intros h' I' (M1 & M2). rewrite (U h' I' M1) in *. lia.
      - split; [discriminate|]. intros (h' & I' & M1 & M2 & _). rewrite (U h' I' M1) in *. lia. }
    apply N.ltb_ge in G1.
    destruct (h_gen h <? h_gen o) eqn:G2.
    { apply N.ltb_lt in G2. exists h. split; auto. split; auto. }
    apply N.ltb_ge in G2.
    destruct (((h_flags h) mod 16 =? SANLK_HOST_FREE) || ((h_flags h) mod 16 =? SANLK_HOST_DEAD)) eqn:G3.
    { flags. apply orb_true_iff in G3. rewrite !N.eqb_eq in G3. split.
      - intros h' I' (M1 & M2). rewrite (U h' I' M1) in *. lia.
      - split; [discriminate|]. intros (h' & I' & M1 & M2 & M3 & M4). rewrite (U h' I' M1) in *. lia. }
    apply orb_false_iff in G3. rewrite !N.eqb_neq in G3.
    destruct (((h_flags h) mod 16 =? SANLK_HOST_LIVE) || ((h_flags h) mod 16 =? SANLK_HOST_FAIL)
              || ((h_flags h) mod 16 =? SANLK_HOST_UNKNOWN)) eqn:G4.
    { flags. rewrite !orb_true_iff, !N.eqb_eq in G4. split.
      - intros h' I' (M1 & M2). rewrite (U h' I' M1) in *. lia.
      - split; auto. intros _. exists h. split; auto. unfold in_use_by. repeat split; try lia. }
    flags. rewrite !orb_false_iff, !N.eqb_neq in G4.
    exists h. split; auto. split; auto. right. lia.
  - assert (X : forall h, In h hosts -> h_id h <> h_id o).
    { intros h I E. rewrite (find_unique o hosts h ND I E) in F. discriminate. }
    split.
    + intros h I (M & _). exact (X h I M).
    + split; [discriminate|]. intros (h & I & M & _). destruct (X h I M).
Qed.

Lemma test_owners_spec owners hosts fail :
  NoDup (map h_id hosts) ->
  match test_owners owners hosts fail with
  | TestEINVAL => exists o h, In o owners /\ In h hosts /\ malformed o h
  | TestOk b => (forall o h, In o owners -> In h hosts -> ~ malformed o h) /\
                (b = true <-> fail = true \/ exists o h, In o owners /\ In h hosts /\ in_use_by o h)
  end.
Proof.
  intros ND. revert fail. induction owners as [|o r IH]; intros fail; cbn [test_owners].
  - split; [intros ? ? []|]. split; auto. intros [|(? & ? & [] & _)]; auto.
  - pose proof (test_owner_spec o hosts ND) as S. destruct test_owner as [b|].
    + destruct S as [S1 S2]. specialize (IH (fail || b)).
      destruct test_owners.
      * destruct IH as (o' & h & ? & ?). exists o', h. cbn. auto.
      * destruct IH as [I1 I2]. split.
        -- intros o' h [<-|I] J; [auto|eauto].
        -- rewrite I2, orb_true_iff, S2. split.
           ++ intros [[|(h & ? & ?)]|(o' & h & ? & ?)]; cbn [In]; eauto 7.
           ++ intros [|(o' & h & [<-|I] & J & K)]; eauto 7.
    + destruct S as (h & ? & ?). exists o, h. cbn. auto.
Qed.

(* hosts is a host list as returned by sanlock_get_hosts: one entry per id *)
Theorem C43_owner_test_exact :
  forall owners hosts,
    NoDup (map h_id hosts) ->
    (forall o h, In o owners -> In h hosts -> ~ malformed o h) ->
    exists fail, test_resource_owners owners hosts = TestOk fail /\
      (fail = true <-> exists o h, In o owners /\ In h hosts /\ in_use_by o h).
Proof.
  intros owners hosts ND OK. pose proof (test_owners_spec owners hosts false ND) as S.
  unfold test_resource_owners. destruct test_owners as [|b].
  - destruct S as (o & h & I & J & M). destruct (OK o h I J M).
  - exists b. split; auto. destruct S as [_ S]. rewrite S. intuition discriminate.
Qed.

Theorem C43_error_exact :
  forall owners hosts,
    NoDup (map h_id hosts) ->
    (test_resource_owners owners hosts = TestEINVAL <->
     exists o h, In o owners /\ In h hosts /\ malformed o h).
Proof.
  intros owners hosts ND. pose proof (test_owners_spec owners hosts false ND) as S.
  unfold test_resource_owners. destruct test_owners as [|b]; [intuition|].
  destruct S as [S _]. split; [discriminate|]. intros (o & h & I & J & M). destruct (S o h I J M).
Qed.

Example C43_nonvacuous :
  test_resource_owners [mkHost 1 5 0; mkHost 2 1 0] [mkHost 1 5 5; mkHost 2 1 3] = TestOk true /\
  test_resource_owners [mkHost 1 5 0; mkHost 2 1 0] [mkHost 1 6 3; mkHost 2 1 2] = TestOk false /\
  test_resource_owners [mkHost 1 5 0] [mkHost 1 4 3] = TestEINVAL.
Proof. vm_compute. auto. Qed.

Print Assumptions C43_owner_test_exact.
Print Assumptions C43_error_exact.
