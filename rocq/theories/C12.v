(* C12: an acquire that names a lease version competes only if the version on
   disk is that version; otherwise it fails and leaves the lease untouched. *)
From Coq Require Import List NArith ZArith Lia Bool Arith ZifyBool ZifyN.
From Verif Require Import Bytes Codec Leader LeaderReadNum Sizes HostStatus Acquire.
Import ListNotations.
Open Scope N_scope.

(* src/resource.c:1641-1644: the version asked for, when SANLK_RES_LVER is set,
   becomes the acquire_lver argument; 0 otherwise *)
Definition token_params (host gen : N) (shared nowait : bool) (want : option N)
           (num_hosts fire : N) : aparams :=
  mkAp host gen false shared nowait (match want with Some v => v | None => 0 end) num_hosts fire.

(* ---- specification: a history of calls, newest first ---- *)
(* the version of the lease as last read in full *)
Definition disk_version (h : list ainput) : option N :=
  option_map l_lver (last_read h).

(* whenever the host competes (calls run_ballot or writes a leader), the version
   read from the disk is the one asked for *)
Definition competes_only_for (want : N) (p : aparams) (ss al : Z) : Prop :=
  forall i h s o s0 o0,
    arun p (astart ss al) h = Some (s0, o0) -> astep p s0 i = Some (s, o) ->
    o <> [] -> disk_version h = Some want.

Definition C12_statement : Prop :=
  forall host gen shared nowait want nh fire ss al,
    competes_only_for want (token_params host gen shared nowait (Some want) nh fire) ss al.

(* states in which a competition is going on *)
Lemma compete_lver p s i s' o c :
  a_force p = false -> a_lver p <> 0 ->
  astep p s i = Some (s', o) ->
  (forall c, cur_of (as_pc s) = Some c -> l_lver c = a_lver p) ->
  cur_of (as_pc s') = Some c -> l_lver c = a_lver p.
Proof.
  intros F Z H IH C.
  destruct (astep_cur _ _ _ _ _ _ H C) as [(mm & rv & -> & Hr)|(C1 & _)]; [|auto].
  unfold astep in H. destruct (as_pc s) eqn:P; try discriminate H.
  injection H as H _. subst s'. rewrite F in C.
  destruct (rv <? 0)%Z eqn:E; [cbn in C; discriminate C|].
  destruct (negb ((Z.of_N (l_sector_size c) =? as_ss s)%Z && (leader_align c =? as_align s)%Z)) eqn:E1;
    [cbn in C; discriminate C|].
  destruct (negb (a_lver p =? 0) && negb (l_lver c =? a_lver p)) eqn:E2; [cbn in C; discriminate C|].
  lia.
Qed.

Lemma run_lver p ss al h s o :
  a_force p = false -> a_lver p <> 0 ->
  arun p (astart ss al) h = Some (s, o) ->
  forall c, cur_of (as_pc s) = Some c -> l_lver c = a_lver p.
Proof.
  intros F Z. revert s o. induction h as [|i r IH]; intros s o H c C; cbn [arun] in H.
  - injection H as <- <-. unfold astart in C. cbn in C. destruct (ss =? 0)%Z; discriminate C.
  - destruct (arun p (astart ss al) r) as [(s1, o1)|] eqn:E; [|discriminate H].
    destruct (astep p s1 i) as [(s2, o2)|] eqn:E2; [|discriminate H]. injection H as <- <-.
    eapply compete_lver; eauto.
Qed.

(* output comes only from states with a known current leader *)
Lemma out_cur p s i s' o :
  astep p s i = Some (s', o) -> o <> [] ->
  exists c, cur_of (as_pc s) = Some c /\
  forall x, In x o -> match x with OBallot _ lv _ => lv = l_lver c + 1 | OCommit _ => True end.
Proof.
  intros H N. unfold astep in H.
  destruct (as_pc s) eqn:P; destruct i; try discriminate H; injection H as _ <-; try congruence;
    eexists; (split; [reflexivity|]); cbn; intros x [<-|[]]; auto.
Qed.

(* missing: version 0 (see C12_refuted) *)
Theorem C12_competes_only_for_version_partial :
  forall host gen shared nowait want nh fire ss al, want <> 0 ->
    competes_only_for want (token_params host gen shared nowait (Some want) nh fire) ss al.
Proof.
  intros host gen shared nowait want nh fire ss al W i h s o s0 o0 H1 H2 N.
  destruct (out_cur _ _ _ _ _ H2 N) as (c & C & _).
  unfold disk_version. rewrite (arun_cur _ _ _ _ _ _ _ H1 C). cbn. f_equal.
  apply (run_lver _ _ _ _ _ _ (eq_refl : a_force (token_params host gen shared nowait (Some want) nh fire) = false) W H1 c C).
Qed.

(* the version competed for is the next one *)
Theorem C12_competes_for_next_version :
  forall host gen shared nowait want nh fire ss al h s out,
    want <> 0 ->
    arun (token_params host gen shared nowait (Some want) nh fire) (astart ss al) h = Some (s, out) ->
    forall n lv mb, In (OBallot n lv mb) out -> lv = want + 1.
Proof.
  intros host gen shared nowait want nh fire ss al h s out W. revert s out.
  induction h as [|i r IH]; intros s out H n lv mb I; cbn [arun] in H.
  - injection H as <- <-. destruct I.
  - destruct (arun _ (astart ss al) r) as [(s1, o1)|] eqn:E; [|discriminate H].
    destruct (astep _ s1 i) as [(s2, o2)|] eqn:E2; [|discriminate H]. injection H as <- <-.
    apply in_app_iff in I. destruct I as [I|I]; [|eauto].
    destruct (out_cur _ _ _ _ _ E2) as (c & C & Q); [intros ->; destruct I|].
    apply Q in I. subst lv. f_equal.
    apply (run_lver _ _ _ _ _ _ (eq_refl : a_force (token_params host gen shared nowait (Some want) nh fire) = false) W E c C).
Qed.

(* a read that shows another version ends the acquire with the version error,
   without any write *)
Theorem C12_other_version_fails :
  forall host gen shared nowait want nh fire ss al h s0 o0 rv l mm,
    want <> 0 ->
    let p := token_params host gen shared nowait (Some want) nh fire in
    arun p (astart ss al) h = Some (s0, o0) -> as_pc s0 = PRead -> (0 <= rv)%Z ->
    Z.of_N (l_sector_size l) = as_ss s0 -> leader_align l = as_align s0 ->
    l_lver l <> want ->
    exists s, arun p (astart ss al) (IRead rv l mm :: h) = Some (s, o0) /\ as_pc s = PDone (-240)%Z.
Proof.
  intros host gen shared nowait want nh fire ss al h s0 o0 rv l mm W p H P R S1 S2 L.
  cbn [arun]. rewrite H. unfold astep. rewrite P. rewrite S1, S2, !Z.eqb_refl. cbn [andb negb].
  destruct (rv <? 0)%Z eqn:E; [lia|]. subst p. cbn [a_force a_lver token_params].
  destruct (negb (want =? 0) && negb (l_lver l =? want)) eqn:X; [|lia].
  eexists. split; reflexivity.
Qed.

(* if no read ever shows the version asked for, nothing is written *)
Theorem C12_untouched :
  forall host gen shared nowait want nh fire ss al h s out,
    want <> 0 ->
    arun (token_params host gen shared nowait (Some want) nh fire) (astart ss al) h = Some (s, out) ->
    (forall rv l mm, In (IRead rv l mm) h -> (0 <= rv)%Z -> l_lver l <> want) ->
    out = [] /\ as_pc s <> PDone SANLK_OK.
Proof.
  intros host gen shared nowait want nh fire ss al h s out W H. revert s out H.
  set (p := token_params host gen shared nowait (Some want) nh fire).
  induction h as [|i r IH]; intros s out H Q; cbn [arun] in H.
  - injection H as <- <-. split; auto. unfold astart. cbn. destruct (ss =? 0)%Z; discriminate.
  - destruct (arun p (astart ss al) r) as [(s1, o1)|] eqn:E; [|discriminate H].
    destruct (astep p s1 i) as [(s2, o2)|] eqn:E2; [|discriminate H]. injection H as <- <-.
    assert (Qr : forall rv l mm, In (IRead rv l mm) r -> (0 <= rv)%Z -> l_lver l <> want) by (intros; eapply Q; cbn; eauto).
    destruct (IH _ _ eq_refl Qr) as (-> & N1).
    assert (NC : cur_of (as_pc s1) = None).
    { destruct (cur_of (as_pc s1)) as [c|] eqn:C; auto. exfalso.
      pose proof (arun_cur _ _ _ _ _ _ _ E C) as L.
      assert (LR : exists rv mm, In (IRead rv c mm) r /\ (0 <= rv)%Z).
      { clear - L. induction r as [|x r IH]; [discriminate L|]. destruct x; cbn in L |- *;
          try (destruct (IH L) as (a & b & A & B); exists a, b; split; auto; fail).
        destruct (rv <? 0)%Z eqn:X.
        - destruct (IH L) as (a & b & A & B); exists a, b; auto.
        - injection L as <-. exists rv, max_mbal. split; auto. lia. }
      destruct LR as (rv & mm & A & B). apply (Qr _ _ _ A B).
      apply (run_lver p ss al r s1 [] eq_refl W E c C). }
    assert (O2 : o2 = []).
    { destruct o2 as [|y o2]; auto. exfalso.
      destruct (out_cur _ _ _ _ _ E2) as (c & C & _); [discriminate|congruence]. }
    subst o2. split; [reflexivity|].
    unfold astep in E2. destruct (as_pc s1) eqn:P1; cbn in NC; try discriminate NC;
      destruct i; try discriminate E2.
    injection E2 as <-. cbn [a_force p token_params].
    destruct (rv <? 0)%Z eqn:R; [cbn; unfold SANLK_OK; intros X; injection X; lia|].
    match goal with |- context [if ?b then _ else _] => destruct b eqn:?; [discriminate|] end.
    cbn [a_force a_lver p token_params].
    assert (l_lver l <> want) by (apply (Q rv l max_mbal); [left; reflexivity|lia]).
    destruct (negb (want =? 0) && negb (l_lver l =? want)) eqn:X; [discriminate|lia].
Qed.

(* version 0 cannot be asked for: the acquire competes whatever is on disk *)
Definition L0 (lver : N) : leader :=
  mkLeader PAXOS_DISK_MAGIC 0x00060004 0x110 512 2000 2000 1 1 lver [] [] 0 0 0 0 10 1 1 0.
Theorem C12_refuted : ~ C12_statement.
Proof.
  intros S.
  specialize (S 1 1 false false 0 0 60 512%Z 1048576%Z
    (IBallot 1 (mkAd 8 1 1 100)) [IRead 1 (L0 7) 0]).
  unfold token_params in S. cbn [astart arun] in S.
  specialize (S _ _ _ _ eq_refl eq_refl).
  assert (X : [OBallot 2000 8 1] <> []) by discriminate. apply S in X. vm_compute in X. discriminate X.
Qed.

(* hypotheses can be met: version 7 asked for and found, the lease is acquired
   as version 8 *)
Example C12_nonvacuous :
  let p := token_params 1 1 false false (Some 7) 0 60 in
  exists s out,
    arun p (astart 512 1048576) [IWrite 100 1; IBallot 1 (mkAd 8 1 1 100); IRead 1 (L0 7) 0] = Some (s, out) /\
    as_pc s = PDone SANLK_OK /\ length out = 2%nat.
Proof. do 2 eexists. vm_compute. auto. Qed.

Print Assumptions C12_competes_only_for_version_partial.
Print Assumptions C12_competes_for_next_version.
Print Assumptions C12_other_version_fails.
Print Assumptions C12_untouched.
Print Assumptions C12_refuted.
