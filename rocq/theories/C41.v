(* C41: an acquire of several resources is all or nothing. *)
From Coq Require Import List Arith ZArith Lia Bool Permutation ZifyBool ZifyNat.
From Verif Require Import CmdTokens.
Import ListNotations.

(* ---------------- specification ---------------- *)
(* The resources asked for are those the first [count] messages carry.  Either the
   call succeeds and the process holds what it held and all of them; or it fails and
   a live process holds exactly what it held, a dead one nothing; and then exactly
   the new ones obtained so far (and everything held, if it died) are released, each
   once. *)
Definition asked (a : acq_in) : list tok :=
  flat_map (fun m => match m with RcvOk t => [t] | _ => [] end) (firstn (ai_count a) (ai_msgs a)).
(* tokens obtained: acquire_token succeeded for it and for all before it *)
Fixpoint obtained (new : list tok) (rv : tok -> Z) : list tok :=
  match new with [] => [] | t :: r => if (0 <=? rv t)%Z then t :: obtained r rv else [] end.
Definition C41_all (a : acq_in) (s : slots) (o : acq_out) : Prop :=
  ao_result o = 0%Z /\ length (asked a) = ai_count a /\
  Permutation (held (ao_slots o)) (held s ++ asked a) /\
  ao_released o = [] /\ ao_freed o = [] /\ ao_client_free o = false /\ ai_dead1 a = false /\
  obtained (asked a) (ai_rv a) = asked a /\ forallb (ai_space a) (asked a) = true.
Definition C41_nothing (a : acq_in) (s : slots) (o : acq_out) : Prop :=
  (ao_result o < 0)%Z /\
  (exists got, (got = [] \/ got = obtained (asked a) (ai_rv a)) /\
    (ai_dead1 a = false -> held (ao_slots o) = held s /\ ao_released o = got /\ ao_client_free o = false) /\
    (ai_dead1 a = true -> held (ao_slots o) = [] /\ Permutation (ao_released o) (got ++ held s) /\ ao_client_free o = true)).
Definition C41_statement : Prop := forall a s,
  C41_all a s (cmd_acquire a s) \/ C41_nothing a s (cmd_acquire a s).

(* ---------------- lemmas ---------------- *)
Lemma held_app : forall a b, held (a ++ b) = held a ++ held b.
Proof. intros a b. unfold held. apply flat_map_app. Qed.
Lemma held_none : forall n, held (repeat None n) = [].
Proof. induction n as [|n IH]; [reflexivity|exact IH]. Qed.
Lemma empty_app : forall a b, empty_slots (a ++ b) = empty_slots a + empty_slots b.
Proof. intros a b. unfold empty_slots. rewrite filter_app, app_length. reflexivity. Qed.

Lemma recv_spec : forall n msgs, let '(l, z) := recv_loop n msgs in
  (z <= 0)%Z /\ (z = 0%Z -> length l = n /\ l = flat_map (fun m => match m with RcvOk t => [t] | _ => [] end) (firstn n msgs)).
Proof.
  induction n as [|n IH]; intros msgs; cbn [recv_loop]. { split; [lia|]. intros _. split; reflexivity. }
  destruct msgs as [|m r]; [split; [unfold ENOTCONN; lia|discriminate]|].
  destruct m as [t| | | |]; cbn [rcv_err]; try (split; [unfold ENOTCONN, ERANGE, ENOMEM; lia|discriminate]).
  specialize (IH r). destruct (recv_loop n r) as [l z]. destruct IH as (A & B). split; [exact A|].
  intros Z. destruct (B Z) as (B1 & B2). cbn [length firstn flat_map app]. split; [lia|]. f_equal. exact B2.
Qed.
Lemma info_neg : forall new info, (info_loop new info = 0 \/ info_loop new info < 0)%Z.
Proof. induction new as [|t r IH]; intros info; cbn [info_loop]; [left; reflexivity|]. destruct (info t); [apply IH|right; unfold ENOSPC; lia]. Qed.
Lemma acquire_spec : forall new rv, let '(got, z) := acquire_loop new rv in
  got = obtained new rv /\ (z <= 0)%Z /\ (z = 0%Z -> got = new).
Proof.
  induction new as [|t r IH]; intros rv; cbn [acquire_loop obtained]. { repeat split; lia. }
  destruct (rv t <? 0)%Z eqn:E.
  - assert ((0 <=? rv t)%Z = false) as -> by lia. repeat split; try lia. 
  - assert ((0 <=? rv t)%Z = true) as -> by lia. specialize (IH rv). destruct (acquire_loop r rv) as [l z].
    destruct IH as (A & B & C). repeat split; [congruence|lia|]. intros Z. rewrite (C Z). reflexivity.
Qed.

Lemma put_slot_held : forall s t, 0 < empty_slots s ->
  Permutation (held (put_slot s t)) (held s ++ [t]) /\ empty_slots s = S (empty_slots (put_slot s t)).
Proof.
  induction s as [|[x|] r IH]; intros t E; unfold empty_slots in *; cbn in *.
  - lia.
  - destruct (IH t E) as (P & Q). split; [apply perm_skip; exact P|exact Q].
  - split; [|reflexivity]. apply Permutation_cons_append.
Qed.
Lemma put_all_held : forall new s, length new <= empty_slots s -> Permutation (held (put_all s new)) (held s ++ new).
Proof.
  induction new as [|t r IH]; intros s L; cbn [put_all fold_left length] in *. { rewrite app_nil_r. reflexivity. }
  destruct (put_slot_held s t ltac:(lia)) as (P & Q). fold (put_all (put_slot s t) r).
  rewrite (IH (put_slot s t)) by lia. rewrite P, <- app_assoc. reflexivity.
Qed.

Lemma body_spec : forall a s, let '(new, got, r, s1) := acquire_body a s in
  held s1 = held s /\ (r <= 0)%Z /\
  (r = 0%Z -> new = asked a /\ got = new /\ length new = ai_count a /\ ai_count a <= empty_slots s1 /\ obtained (asked a) (ai_rv a) = asked a) /\
  (got = [] \/ got = obtained (asked a) (ai_rv a)).
Proof.
  intros a s. unfold acquire_body. destruct (Nat.ltb SANLK_MAX_RESOURCES (ai_count a)).
  { repeat split; auto; try (unfold E2BIG in *; lia); discriminate. }
  destruct (ai_dead0 a). { repeat split; auto; try (unfold ESTALE in *; lia); discriminate. }
  destruct (grow a s) as [s1|] eqn:EG. 2:{ repeat split; auto; try (unfold ENOMEM in *; lia); discriminate. }
  assert (H1 : held s1 = held s).
  { unfold grow in EG. destruct (Nat.ltb _ _); [|congruence]. destruct (ai_grow a); [|discriminate].
    assert (s1 = s ++ repeat None (SANLK_MAX_RESOURCES * 2)) as -> by congruence.
    rewrite held_app, held_none, app_nil_r. reflexivity. }
  destruct (Nat.ltb (empty_slots s1) (ai_count a)) eqn:EE. { repeat split; auto; try (unfold ENOENT in *; lia); discriminate. }
  apply Nat.ltb_ge in EE.
  pose proof (recv_spec (ai_count a) (ai_msgs a)) as RS. destruct (recv_loop (ai_count a) (ai_msgs a)) as [new r1].
  destruct RS as (R1 & R2). destruct (negb (r1 =? 0)%Z) eqn:E1. { split; [exact H1|]. split; [exact R1|]. split; [lia|auto]. }
  destruct (R2 ltac:(lia)) as (R3 & R4). fold (asked a) in R4.
  destruct (negb (ai_opt a)). { split; [exact H1|]. split; [unfold ENOTCONN; lia|]. split; [discriminate|auto]. }
  destruct (negb (info_loop new (ai_info a) =? 0)%Z) eqn:E2.
  { split; [exact H1|]. destruct (info_neg new (ai_info a)) as [Z|Z]; [lia|]. split; [lia|]. split; [lia|auto]. }
  pose proof (acquire_spec new (ai_rv a)) as AS. destruct (acquire_loop new (ai_rv a)) as [got r3]. destruct AS as (A1 & A2 & A3).
  split; [exact H1|]. split; [exact A2|]. rewrite <- R4. split; [|auto].
  intros Z. specialize (A3 Z). do 4 (split; [auto|]). congruence.
Qed.

(* ---------------- theorem ---------------- *)
Theorem C41_all_or_nothing : C41_statement.
Proof.
  intros a s. unfold cmd_acquire. pose proof (body_spec a s) as B. destruct (acquire_body a s) as [[[new got] r] s1].
  destruct B as (H1 & R & Z & G).
  destruct (ai_dead1 a) eqn:ED.
  - rewrite !andb_false_r. right. split.
    + cbn [ao_result]. destruct (r =? 0)%Z eqn:ER; [unfold ENOTTY; lia|lia].
    + exists got. split; [exact G|]. cbn [ao_slots ao_released ao_client_free]. rewrite ED. split; [discriminate|].
      intros _. split; [reflexivity|]. split; [rewrite H1; reflexivity|reflexivity].
  - cbn [negb]. rewrite !andb_true_r. destruct (r =? 0)%Z eqn:ER.
    + destruct (Z ltac:(lia)) as (N & GN & L & E & O).
      unfold check_new_tokens_space. assert (Nat.ltb (empty_slots s1) (ai_count a) = false) as -> by (apply Nat.ltb_ge; exact E).
      destruct (forallb (ai_space a) new) eqn:EF.
      * cbn [Z.eqb]. left. unfold C41_all. cbn [ao_result ao_slots ao_released ao_freed ao_client_free]. subst new.
        split; [reflexivity|]. split; [exact L|]. split; [rewrite put_all_held by lia; rewrite H1; reflexivity|].
        do 4 (split; [auto|]). split; [exact O|exact EF].
      * right. unfold ENOSPC. cbn. split; [cbn; lia|]. exists got. split; [exact G|]. cbn. rewrite ED. split; [|discriminate].
        intros _. auto.
    + rewrite ER. right. split; [cbn; lia|]. exists got. split; [exact G|]. cbn. rewrite ED. split; [|discriminate]. auto.
Qed.

(* Every new token is either handed to the process or freed, never both. *)
Theorem C41_freed_or_held : forall a s, let '(new, got, r, s1) := acquire_body a s in
  let o := cmd_acquire a s in
  (ao_result o = 0%Z -> ao_freed o = []) /\ (ao_result o <> 0%Z -> exists extra, ao_freed o = new ++ extra /\ (ai_dead1 a = false -> extra = [])).
Proof.
  intros a s. unfold cmd_acquire. destruct (acquire_body a s) as [[[new got] r] s1].
  set (r' := if (r =? 0)%Z && negb (ai_dead1 a) then _ else _). cbn zeta.
  destruct ((r' =? 0)%Z && negb (ai_dead1 a)) eqn:E. { cbn. split; [reflexivity|congruence]. }
  destruct (ai_dead1 a) eqn:ED.
  - cbn. split; [|intros _; eexists; split; [reflexivity|discriminate]].
    destruct (r' =? 0)%Z eqn:ER; [unfold ENOTTY; discriminate|intros; lia].
  - cbn. split; [cbn [negb] in E; rewrite andb_true_r in E; lia|]. intros _. exists []. rewrite app_nil_r. auto.
Qed.

(* ---------------- hypotheses can be met ---------------- *)
(* three resources for a process that holds one: all are acquired; if the third
   fails the first two are released again *)
Definition in3 (rv3 : Z) (dead : bool) : acq_in :=
  mkAcqIn 3 false true [RcvOk 10; RcvOk 11; RcvOk 12] true (fun _ => true)
    (fun t => if Nat.eqb t 12 then rv3 else 0%Z) dead (fun _ => true).
Definition slots1 : slots := Some 5 :: repeat None 7.
Example C41_nonvacuous :
  cmd_acquire (in3 0 false) slots1 = mkAcqOut 0 [Some 5; Some 10; Some 11; Some 12; None; None; None; None] [] [] false /\
  cmd_acquire (in3 (-11) false) slots1 = mkAcqOut (-11) slots1 [10; 11] [10; 11; 12] false /\
  cmd_acquire (in3 0 true) slots1 = mkAcqOut (-25) [] [10; 11; 12; 5] [10; 11; 12; 5] true.
Proof. vm_compute. auto. Qed.

Print Assumptions C41_all_or_nothing.
Print Assumptions C41_freed_or_held.
