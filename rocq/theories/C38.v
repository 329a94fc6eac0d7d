(* C38: logging never stalls permanently; accepted messages are written once, in
   order. *)
From Coq Require Import List NArith Arith Lia Bool ZifyBool ZifyNat.
From Verif Require Import LogRing.
Import ListNotations.

(* ---------------- specification ---------------- *)
Fixpoint lines (l : list out) : list msg :=
  match l with [] => [] | Line m :: r => m :: lines r | Dropped _ :: r => lines r end.
Fixpoint reported (l : list out) : nat :=
  match l with [] => 0 | Line _ :: r => reported r | Dropped n :: r => n + reported r end.
Definition reachable (n : nat) (s : lrun) : Prop := exists es, lsteps (run_init n) es = Some s.
(* the writer alone, running on from s *)
Fixpoint writer_only (es : list event) : Prop :=
  match es with [] => True | EvLog _ :: _ => False | _ :: r => writer_only r end.
(* The writer can always bring out everything accepted: whatever happened before,
   some run of the writer alone has written all accepted messages, in order and
   exactly once. *)
Definition C38_statement : Prop := forall n s, 1 <= n -> reachable n s ->
  exists es s', writer_only es /\ lsteps s es = Some s' /\ lines (lr_out s') = lr_accepted s'.
(* what is written at any time is a prefix of what was accepted *)
Definition C38_in_order (s : lrun) : Prop := exists rest, lr_accepted s = lines (lr_out s) ++ rest.

(* ---------------- invariant ---------------- *)
Lemma list_set_length : forall A (l : list A) i x, length (list_set l i x) = length l.
Proof. induction l as [|y l IH]; intros [|i] x; cbn; auto. Qed.
Lemma nth_list_set : forall (l : list msg) i j x d, i < length l -> nth j (list_set l i x) d = if Nat.eqb j i then x else nth j l d.
Proof.
  induction l as [|y l IH]; intros [|i] [|j] x d L; cbn in *; try lia; auto. apply IH. lia.
Qed.

(* the k entries from position t on, wrapping *)
Fixpoint content (l : list msg) (t k : nat) : list msg :=
  match k with O => [] | S j => nth t l 0%N :: content l (S t mod length l) j end.

Lemma content_snoc : forall l k t, content l t (S k) = content l t k ++ [nth ((t + k) mod length l) l 0%N] \/ length l <= t.
Proof.
  intros l k. induction k as [|k IH]; intros t.
  - destruct (le_lt_dec (length l) t) as [G|L]; [right; exact G|left]. cbn. rewrite Nat.add_0_r, Nat.mod_small by exact L. reflexivity.
  - destruct (le_lt_dec (length l) t) as [G|L]; [right; exact G|left].
    assert (S t mod length l < length l) by (apply Nat.mod_upper_bound; lia).
    destruct (IH (S t mod length l)) as [E|E]; [|lia].
    change (content l t (S (S k))) with (nth t l 0%N :: content l (S t mod length l) (S k)). rewrite E.
    cbn [content app]. do 2 f_equal. f_equal. f_equal.
    rewrite Nat.add_mod_idemp_l by lia. f_equal. lia.
Qed.

Lemma content_set : forall l k t h x, t < length l -> k < length l -> h = (t + k) mod length l ->
  content (list_set l h x) t k = content l t k.
Proof.
  intros l k t h x Lt Lk Eh.
  assert (G : forall j t', t' < length l -> (forall i, i < j -> (t' + i) mod length l <> h) ->
    content (list_set l h x) t' j = content l t' j).
  { intros j. induction j as [|j IH]; intros t' L' NE; [reflexivity|]. cbn [content]. rewrite list_set_length.
    rewrite nth_list_set by (rewrite Eh; apply Nat.mod_upper_bound; lia).
    assert (Nat.eqb t' h = false) as ->.
    { apply Nat.eqb_neq. specialize (NE 0 ltac:(lia)). rewrite Nat.add_0_r, Nat.mod_small in NE; assumption. }
    f_equal. apply IH. { apply Nat.mod_upper_bound. lia. }
    intros i Li. rewrite Nat.add_mod_idemp_l by lia. replace (S t' + i) with (t' + S i) by lia. apply NE. lia. }
  apply G; [exact Lt|]. intros i Li Eq. subst h.
  assert (D1 := Nat.div_mod (t + i) (length l) ltac:(lia)). assert (D2 := Nat.div_mod (t + k) (length l) ltac:(lia)).
  rewrite Eq in D1. remember ((t + i) / length l) as q1. remember ((t + k) / length l) as q2.
  assert (k - i = length l * (q2 - q1)).
  { rewrite Nat.mul_sub_distr_l. lia. }
  destruct (q2 - q1) as [|q]; [lia|]. nia.
Qed.

Definition Inv (n : nat) (s : lrun) : Prop :=
  let r := lr_ring s in
  ring_size r = n /\ rg_tail r < n /\ rg_pending r <= n /\ rg_head r = (rg_tail r + rg_pending r) mod n /\
  lr_accepted s = lines (lr_out s) ++ (match rg_hand r with Some (m, _) => [m] | None => [] end)
                  ++ content (rg_ents r) (rg_tail r) (rg_pending r) /\
  lr_lost s = reported (lr_out s) + (match rg_hand r with Some (_, d) => d | None => 0 end) + rg_dropped r.

Lemma lines_app : forall a b, lines (a ++ b) = lines a ++ lines b.
Proof. induction a as [|[m|n] a IH]; intros b; cbn; rewrite ?IH; reflexivity. Qed.
Lemma reported_app : forall a b, reported (a ++ b) = reported a + reported b.
Proof. induction a as [|[m|n] a IH]; intros b; cbn; rewrite ?IH; lia. Qed.

Lemma inv_init : forall n, 1 <= n -> Inv n (run_init n).
Proof.
  intros n L. unfold Inv, run_init, ring_init, ring_size. cbn. rewrite repeat_length.
  repeat split; try lia. rewrite Nat.mod_small; lia.
Qed.

Lemma inv_step : forall n s e s', 1 <= n -> Inv n s -> lstep s e = Some s' -> Inv n s'.
Proof.
  intros n s e s' N (SZ & T & P & H & A & D) E. destruct e as [m| |]; cbn [lstep] in E.
  - unfold log_save_ent in E. destruct (Nat.eqb (rg_pending (lr_ring s)) (ring_size (lr_ring s))) eqn:EP.
    + injection E as <-. unfold Inv, ring_size in *. cbn [lr_ring lr_accepted lr_lost lr_out rg_ents rg_head rg_tail rg_dropped rg_pending rg_hand].
      do 5 (split; [assumption|]). lia.
    + apply Nat.eqb_neq in EP. injection E as <-. unfold Inv, ring_size in *.
      cbn [lr_ring lr_accepted lr_lost lr_out rg_ents rg_head rg_tail rg_dropped rg_pending rg_hand].
      rewrite list_set_length. split; [exact SZ|]. split; [exact T|]. split; [lia|]. split.
      { rewrite SZ, H. replace (S ((rg_tail (lr_ring s) + rg_pending (lr_ring s)) mod n)) with (1 + (rg_tail (lr_ring s) + rg_pending (lr_ring s)) mod n) by lia.
        rewrite Nat.add_mod_idemp_r by lia. f_equal. lia. }
      split; [|exact D]. rewrite A. rewrite <- !app_assoc. do 2 f_equal.
      destruct (content_snoc (list_set (rg_ents (lr_ring s)) (rg_head (lr_ring s)) m) (rg_pending (lr_ring s)) (rg_tail (lr_ring s))) as [C|C];
        [|rewrite list_set_length in C; lia].
      rewrite C, content_set by (rewrite ?SZ; assumption || lia). f_equal. f_equal.
      rewrite list_set_length, SZ, <- H, nth_list_set by (rewrite SZ, H; apply Nat.mod_upper_bound; lia).
      rewrite Nat.eqb_refl. reflexivity.
  - unfold writer_take in E. destruct (rg_hand (lr_ring s)) eqn:EH; [discriminate|].
    destruct (Nat.eqb (rg_head (lr_ring s)) (rg_tail (lr_ring s))) eqn:EE; [discriminate|]. apply Nat.eqb_neq in EE.
    injection E as <-. unfold Inv, ring_size in *.
    cbn [lr_ring lr_accepted lr_lost lr_out rg_ents rg_head rg_tail rg_dropped rg_pending rg_hand].
    assert (NZ : rg_pending (lr_ring s) <> 0).
    { intros Z. rewrite Z, Nat.add_0_r, Nat.mod_small in H by exact T. contradiction. }
    split; [exact SZ|]. rewrite SZ. split; [apply Nat.mod_upper_bound; lia|]. split; [lia|]. split.
    { rewrite Nat.add_mod_idemp_l by lia. rewrite H. f_equal. lia. }
    split; [|lia]. rewrite A. f_equal. destruct (rg_pending (lr_ring s)) as [|k] eqn:EK; [contradiction|].
    cbn [content app]. rewrite SZ. replace (S k - 1) with k by lia. reflexivity.
  - unfold writer_put in E. destruct (rg_hand (lr_ring s)) as [[m d]|] eqn:EH; [|discriminate].
    injection E as <-. unfold Inv, ring_size in *.
    cbn [lr_ring lr_accepted lr_lost lr_out rg_ents rg_head rg_tail rg_dropped rg_pending rg_hand].
    do 4 (split; [assumption|]). rewrite lines_app, reported_app, A, D. split.
    + rewrite <- app_assoc. cbn [app]. f_equal. destruct (Nat.eqb d 0); reflexivity.
    + destruct (Nat.eqb d 0) eqn:Ed; cbn; lia.
Qed.

Lemma inv_steps : forall n es s s', 1 <= n -> Inv n s -> lsteps s es = Some s' -> Inv n s'.
Proof.
  intros n es. induction es as [|e es IH]; intros s s' N I E; cbn [lsteps] in E.
  - injection E as <-. exact I.
  - destruct (lstep s e) eqn:ES; [|discriminate]. eapply IH; [exact N| |exact E]. eapply inv_step; eassumption.
Qed.
Lemma inv_reach : forall n s, 1 <= n -> reachable n s -> Inv n s.
Proof. intros n s N (es & E). eapply inv_steps; [exact N|apply inv_init; exact N|exact E]. Qed.

(* ---------------- theorems ---------------- *)
(* Safety, for every size and interleaving: what has been written is a prefix of
   what was accepted, in order and without repetition of positions, and every
   dropped message is counted exactly once (reported, in hand, or in the counter). *)
Theorem C38_written_in_order : forall n s, 1 <= n -> reachable n s ->
  C38_in_order s /\
  length (lr_accepted s) = length (lines (lr_out s)) + (match rg_hand (lr_ring s) with Some _ => 1 | None => 0 end) + rg_pending (lr_ring s) /\
  lr_lost s = reported (lr_out s) + (match rg_hand (lr_ring s) with Some (_, d) => d | None => 0 end) + rg_dropped (lr_ring s).
Proof.
  intros n s N R. destruct (inv_reach n s N R) as (SZ & T & P & H & A & D). split; [|split; [|exact D]].
  - eexists. exact A.
  - rewrite A, !app_length.
    assert (C : forall k t, length (content (rg_ents (lr_ring s)) t k) = k).
    { induction k as [|k IH]; intros t; cbn; [reflexivity|]. rewrite IH. reflexivity. }
    rewrite C. destruct (rg_hand (lr_ring s)) as [[m d]|]; cbn [length]; lia.
Qed.

(* A message is accepted exactly when fewer than n are waiting. *)
Theorem C38_accepts_when_room : forall n s m, 1 <= n -> reachable n s ->
  (snd (log_save_ent (lr_ring s) m) = true <-> rg_pending (lr_ring s) < n).
Proof.
  intros n s m N R. destruct (inv_reach n s N R) as (SZ & T & P & _). unfold log_save_ent. rewrite SZ.
  destruct (Nat.eqb (rg_pending (lr_ring s)) n) eqn:E; cbn [snd]; lia.
Qed.

(* Progress as long as the ring is not completely full: the writer alone brings
   out everything. *)
Lemma drain : forall n k s, 1 <= n -> Inv n s -> rg_pending (lr_ring s) = k -> k < n -> rg_hand (lr_ring s) = None ->
  exists es s', writer_only es /\ lsteps s es = Some s' /\ lines (lr_out s') = lr_accepted s' /\ lr_accepted s' = lr_accepted s /\
    rg_pending (lr_ring s') = 0.
Proof.
  intros n k. induction k as [|k IH]; intros s N I PK L HN.
  - exists [], s. split; [exact Logic.I|]. split; [reflexivity|]. destruct I as (SZ & T & P & H & A & D).
    rewrite HN, PK in A. cbn [content app] in A. rewrite app_nil_r in A. auto.
  - pose proof I as (SZ & T & P & H & A & D).
    assert (NE : Nat.eqb (rg_head (lr_ring s)) (rg_tail (lr_ring s)) = false).
    { apply Nat.eqb_neq. rewrite H, PK. intros Eq.
      destruct (le_lt_dec n (rg_tail (lr_ring s) + S k)) as [G|G].
      - replace (rg_tail (lr_ring s) + S k) with (rg_tail (lr_ring s) + S k - n + 1 * n) in Eq by lia.
        rewrite Nat.mod_add, Nat.mod_small in Eq by lia. lia.
      - rewrite Nat.mod_small in Eq by lia. lia. }
    assert (E1 : exists s1, lstep s EvTake = Some s1 /\ rg_pending (lr_ring s1) = k /\ lr_accepted s1 = lr_accepted s /\ exists x, rg_hand (lr_ring s1) = Some x).
    { cbn [lstep]. unfold writer_take. rewrite HN, NE. eexists. split; [reflexivity|]. cbn [lr_ring rg_pending rg_hand lr_accepted].
      split; [lia|]. split; [reflexivity|]. eexists. reflexivity. }
    destruct E1 as (s1 & E1 & P1 & A1 & x & H1).
    assert (I1 := inv_step _ _ _ _ N I E1).
    assert (E2 : exists s2, lstep s1 EvPut = Some s2 /\ rg_pending (lr_ring s2) = k /\ lr_accepted s2 = lr_accepted s /\ rg_hand (lr_ring s2) = None).
    { cbn [lstep]. unfold writer_put. rewrite H1. destruct x as [m d]. eexists. split; [reflexivity|].
      cbn [lr_ring rg_pending rg_hand lr_accepted]. auto. }
    destruct E2 as (s2 & E2 & P2 & A2 & H2).
    assert (I2 := inv_step _ _ _ _ N I1 E2).
    destruct (IH s2 N I2 P2 ltac:(lia) H2) as (es & s' & W & E & LO & AC & Z).
    exists (EvTake :: EvPut :: es), s'. cbn [writer_only lsteps]. rewrite E1, E2. do 3 (split; [assumption|]).
    split; [congruence|exact Z].
Qed.

Theorem C38_progress_partial : forall n s, 1 <= n -> reachable n s -> rg_pending (lr_ring s) < n ->
  exists es s', writer_only es /\ lsteps s es = Some s' /\ lines (lr_out s') = lr_accepted s' /\ lr_accepted s' = lr_accepted s /\
    rg_pending (lr_ring s') = 0.
Proof.
  intros n s N R L. pose proof (inv_reach n s N R) as I. destruct (rg_hand (lr_ring s)) as [[m d]|] eqn:HN.
  - assert (E2 : exists s2, lstep s EvPut = Some s2 /\ rg_pending (lr_ring s2) = rg_pending (lr_ring s) /\ lr_accepted s2 = lr_accepted s /\ rg_hand (lr_ring s2) = None).
    { cbn [lstep]. unfold writer_put. rewrite HN. eexists. split; [reflexivity|]. cbn [lr_ring rg_pending rg_hand lr_accepted]. auto. }
    destruct E2 as (s2 & E2 & P2 & A2 & H2). assert (I2 := inv_step _ _ _ _ N I E2).
    destruct (drain n _ s2 N I2 eq_refl ltac:(lia) H2) as (es & s' & W & E & LO & AC & Z).
    exists (EvPut :: es), s'. cbn [writer_only lsteps]. rewrite E2. do 3 (split; [assumption|]). split; [congruence|exact Z].
  - exact (drain n _ s N I eq_refl L HN).
Qed.

(* ---------------- the full statement fails ---------------- *)
(* Once n messages wait and the writer has nothing in hand, head equals tail, the
   writer takes the ring for empty, and nothing is accepted or written again. *)
Definition stuck (n : nat) (s : lrun) : Prop :=
  rg_pending (lr_ring s) = n /\ rg_hand (lr_ring s) = None /\ ring_size (lr_ring s) = n /\
  rg_head (lr_ring s) = rg_tail (lr_ring s).
Theorem C38_full_ring_is_stuck : forall n s, 1 <= n -> reachable n s ->
  rg_pending (lr_ring s) = n -> rg_hand (lr_ring s) = None ->
  forall es s', lsteps s es = Some s' -> lr_out s' = lr_out s /\ lr_accepted s' = lr_accepted s.
Proof.
  intros n s N R P HN. destruct (inv_reach n s N R) as (SZ & T & _ & H & _).
  assert (S0 : stuck n s).
  { repeat split; auto. rewrite H, P. replace (rg_tail (lr_ring s) + n) with (rg_tail (lr_ring s) + 1 * n) by lia.
    rewrite Nat.mod_add, Nat.mod_small; lia. }
  clear SZ T H P HN R. intros es. revert s S0. induction es as [|e es IH]; intros s (P & HN & SZ & HT) s' E; cbn [lsteps] in E.
  { injection E as <-. auto. }
  destruct e as [m| |]; cbn [lstep] in E.
  - unfold log_save_ent in E. rewrite P, SZ, Nat.eqb_refl in E.
    apply IH in E; [exact E|]. repeat split; cbn; auto.
  - unfold writer_take in E. rewrite HN, HT, Nat.eqb_refl in E. discriminate.
  - unfold writer_put in E. rewrite HN in E. discriminate.
Qed.

Lemma burst : forall n k s, Inv n s -> 1 <= n -> rg_pending (lr_ring s) + k = n -> rg_hand (lr_ring s) = None ->
  exists s', lsteps s (repeat (EvLog 7%N) k) = Some s' /\ rg_pending (lr_ring s') = n /\ rg_hand (lr_ring s') = None /\ lr_out s' = lr_out s.
Proof.
  intros n k. induction k as [|k IH]; intros s I N P HN; cbn [repeat lsteps].
  - exists s. repeat split; auto. lia.
  - assert (E : exists s1, lstep s (EvLog 7%N) = Some s1 /\ rg_pending (lr_ring s1) = S (rg_pending (lr_ring s)) /\ rg_hand (lr_ring s1) = None /\ lr_out s1 = lr_out s).
    { cbn [lstep]. unfold log_save_ent. destruct I as (SZ & _). rewrite SZ.
      destruct (Nat.eqb (rg_pending (lr_ring s)) n) eqn:E; [apply Nat.eqb_eq in E; lia|].
      eexists. split; [reflexivity|]. cbn. auto. }
    destruct E as (s1 & E1 & P1 & H1 & O1). rewrite E1.
    destruct (IH s1 (inv_step _ _ _ _ N I E1) N ltac:(lia) H1) as (s' & E & P' & H' & O'). exists s'. repeat split; auto. congruence.
Qed.

(* for every ring size a burst of exactly that many messages reaches it *)
Theorem C38_burst_stalls : forall n, 1 <= n -> exists s, lsteps (run_init n) (repeat (EvLog 7%N) n) = Some s /\
  forall es s', lsteps s es = Some s' -> lr_out s' = [].
Proof.
  intros n N. destruct (burst n n (run_init n) (inv_init n N) N ltac:(cbn; lia) eq_refl) as (s & E & P & H & O).
  exists s. split; [exact E|]. intros es s' E'.
  destruct (C38_full_ring_is_stuck n s N (ex_intro _ _ E) P H es s' E') as (-> & _). exact O.
Qed.
Theorem C38_refuted : ~ C38_statement.
Proof.
  intros S. destruct (C38_burst_stalls 1 (le_n 1)) as (s & E & K).
  destruct (S 1 s (le_n 1) (ex_intro _ _ E)) as (es & s' & W & E' & LO).
  assert (O := K _ _ E'). rewrite O in LO. cbn in E. injection E as <-.
  destruct (C38_full_ring_is_stuck 1 _ (le_n 1) (ex_intro _ [EvLog 7%N] eq_refl) eq_refl eq_refl _ _ E') as (_ & A).
  rewrite A in LO. discriminate LO.
Qed.

(* Consequently a drop is never reported: it happens only with a full ring, and
   the writer never leaves that state. *)
Theorem C38_drops_never_reported : forall n s, 1 <= n -> reachable n s -> reported (lr_out s) = 0.
Proof.
  intros n s N (es & E).
  assert (G : forall es s s', Inv n s ->
    (reported (lr_out s) = 0 /\ (match rg_hand (lr_ring s) with Some (_, d) => d | None => 0 end) = 0 /\
     (rg_dropped (lr_ring s) = 0 \/ rg_pending (lr_ring s) = n)) ->
    lsteps s es = Some s' -> reported (lr_out s') = 0).
  { clear es s E. intros es. induction es as [|e es IH]; intros s s' I (R & HD & DP) E; cbn [lsteps] in E.
    { injection E as <-. exact R. }
    destruct (lstep s e) as [s1|] eqn:ES; [|discriminate].
    apply (IH s1 s'); [eapply inv_step; eassumption| |exact E]. clear IH E.
    pose proof I as (SZ & T & P & H & _). destruct e as [m| |]; cbn [lstep] in ES.
    - unfold log_save_ent in ES. destruct (Nat.eqb (rg_pending (lr_ring s)) (ring_size (lr_ring s))) eqn:EP; injection ES as <-;
        cbn [lr_ring lr_out rg_hand rg_dropped rg_pending]; do 2 (split; [assumption|]).
      + right. apply Nat.eqb_eq in EP. congruence.
      + apply Nat.eqb_neq in EP. left. destruct DP; [assumption|congruence].
    - unfold writer_take in ES. destruct (rg_hand (lr_ring s)); [discriminate|].
      destruct (Nat.eqb (rg_head (lr_ring s)) (rg_tail (lr_ring s))) eqn:EE; [discriminate|]. apply Nat.eqb_neq in EE.
      injection ES as <-. cbn [lr_ring lr_out rg_hand rg_dropped rg_pending]. split; [exact R|]. split; [|left; reflexivity].
      destruct DP as [Z|F]; [exact Z|]. exfalso. apply EE. rewrite H, F.
      replace (rg_tail (lr_ring s) + n) with (rg_tail (lr_ring s) + 1 * n) by lia. rewrite Nat.mod_add, Nat.mod_small; lia.
    - unfold writer_put in ES. destruct (rg_hand (lr_ring s)) as [[m d]|]; [|discriminate].
      injection ES as <-. cbn [lr_ring lr_out rg_hand rg_dropped rg_pending]. subst d. rewrite reported_app. cbn. split; [lia|]. auto. }
  apply (G es (run_init n) s); [apply inv_init; exact N|cbn; auto|exact E].
Qed.

(* ---------------- hypotheses can be met ---------------- *)
(* a ring of 3: two messages, one taken, one more, written, then one waits *)
Definition example_events : list event := [EvLog 1%N; EvLog 2%N; EvTake; EvLog 3%N; EvPut; EvTake; EvPut].
Example C38_nonvacuous : exists s, reachable 3 s /\ rg_pending (lr_ring s) < 3 /\
  lr_out s = [Line 1%N; Line 2%N] /\ lr_accepted s = [1; 2; 3]%N.
Proof.
  eexists. split; [exists example_events; vm_compute; reflexivity|]. vm_compute. repeat split; lia.
Qed.
Print Assumptions C38_written_in_order.
Print Assumptions C38_accepts_when_room.
Print Assumptions C38_progress_partial.
Print Assumptions C38_full_ring_is_stuck.
Print Assumptions C38_burst_stalls.
Print Assumptions C38_refuted.
Print Assumptions C38_drops_never_reported.
