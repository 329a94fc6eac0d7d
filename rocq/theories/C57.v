(* C57: the renewal history shows the last renewals and what happened after each *)
From Coq Require Import List Arith Lia Bool.
From Verif Require Import RenewHist.
Import ListNotations.

(* ---- specification ---- *)
(* failures of either kind after a renewal, up to the next one *)
Fixpoint timeouts (es : list rev) : nat :=
  match es with RTimeout :: r => S (timeouts r) | RError :: r => timeouts r | _ => 0 end.
Fixpoint errors (es : list rev) : nat :=
  match es with RError :: r => S (errors r) | RTimeout :: r => errors r | _ => 0 end.
(* one record per renewal *)
Fixpoint groups (es : list rev) : list hrec :=
  match es with
  | [] => []
  | ROk ts rd wr :: r => mkH ts rd wr (timeouts r) (errors r) :: groups r
  | _ :: r => groups r
  end.
Definition lastn {A} (n : nat) (l : list A) : list A := skipn (length l - n) l.
(* the first entry is made when the host lease was acquired (src/lockspace.c:905-906); times are not 0 *)
Definition real (es : list rev) : Prop :=
  Forall (fun e => match e with ROk ts _ _ => ts <> 0 | _ => True end) es
  /\ match es with [] | ROk _ _ _ :: _ => True | _ => False end.
Definition C57_statement : Prop :=
  forall n es, 2 <= n -> real es -> report (saves (hist_init n) es) = lastn n (groups es).

(* with 2 entries: the third renewal takes over the failures counted for the first one *)
Definition C57_run : list rev := [ROk 1 0 0; RTimeout; ROk 2 5 5; ROk 3 5 5].
Theorem C57_refuted : ~ C57_statement.
Proof.
  intros H. specialize (H 2 C57_run (le_n 2)).
  assert (real C57_run) as R by (split; [repeat constructor; discriminate|exact I]).
  specialize (H R). vm_compute in H. discriminate.
Qed.

(* a history of one entry is never reported *)
Theorem C57_one_entry : forall es, report (saves (hist_init 1) es) = [].
Proof.
  intros es. assert (G : hi_next (saves (hist_init 1) es) = 0 /\ hi_prev (saves (hist_init 1) es) = 0 /\ length (hi_buf (saves (hist_init 1) es)) = 1).
  { unfold saves. induction es as [|e es IH] using List.rev_ind; [cbn; auto|].
    rewrite fold_left_app. cbn [fold_left]. destruct IH as (A & B & C).
    destruct e; cbn [save hi_next hi_prev hi_buf]; rewrite ?mod_nth_length, ?A, ?B, ?C; auto. }
  destruct G as (A & B & C). unfold report. rewrite A, B, C. reflexivity.
Qed.

(* ---- proofs ---- *)
Lemma groups_ok es ts rd wr : groups (es ++ [ROk ts rd wr]) = groups es ++ [mkH ts rd wr 0 0].
Proof.
  assert (T : forall es, timeouts (es ++ [ROk ts rd wr]) = timeouts es /\ errors (es ++ [ROk ts rd wr]) = errors es).
  { induction es0 as [|[] es0 [A B]]; cbn; auto. }
  induction es as [|[] es IH]; cbn [app groups]; auto.
  destruct (T es) as [-> ->]. rewrite IH. reflexivity.
Qed.

Lemma groups_fail es e l x : is_ok e = false -> groups es = l ++ [x] -> groups (es ++ [e]) = l ++ [bump e x].
Proof.
  intros F. revert l x. induction es as [|a es IH]; intros l x H.
  - destruct l; discriminate.
  - assert (NG : forall e0, groups es = [] ->
        timeouts (es ++ [e0]) = timeouts es + timeouts [e0] /\ errors (es ++ [e0]) = errors es + errors [e0]).
    { intros e0. clear. induction es as [|[] es IH]; cbn; auto; try discriminate; intros H; destruct (IH H) as [-> ->]; auto. }
    assert (GG : groups es <> [] -> timeouts (es ++ [e]) = timeouts es /\ errors (es ++ [e]) = errors es).
    { clear. induction es as [|[] es IH]; cbn; auto; try congruence; intros H; destruct (IH H) as [-> ->]; auto. }
    destruct a; cbn [groups app] in *.
    + destruct l as [|y l].
      * cbn [app] in H. injection H as <- G. specialize (NG e G). destruct NG as [-> ->].
        assert (groups (es ++ [e]) = []) as ->.
        { clear - G F. induction es as [|[] es IH]; cbn in *; auto; try discriminate. destruct e; auto; discriminate. }
        destruct e; try discriminate; cbn; rewrite ?Nat.add_0_r, ?Nat.add_1_r; reflexivity.
      * cbn [app] in H. injection H as <- G. destruct GG as [-> ->]; [rewrite G; destruct l; discriminate|].
        rewrite (IH _ _ G). reflexivity.
    + apply IH; auto.
    + apply IH; auto.
Qed.

Definition strip (h : hrec) : nat * nat * nat := (h_ts h, h_rd h, h_wr h).

Lemma ring_length n s l : ring n s l -> length l <= n.
Proof. intros [l' free nx pv NE NF L T Z -> P|a b pv NB L T ->]; rewrite ?app_length; lia. Qed.

Lemma ring_ok n s l ts rd wr :
  2 <= n -> ts <> 0 -> ring n s l ->
  exists l', ring n (save s (ROk ts rd wr)) l'
    /\ (length l < n -> l' = l ++ [mkH ts rd wr 0 0])
    /\ (length l = n -> exists x r, l = x :: r /\ l' = r ++ [set_rec ts rd wr x]).
Proof.
  intros N T R. destruct R as [l' free nx pv NE NF L TS Z -> P|a b pv NB L TS ->].
  - eexists. split; [apply ring_ok_part; eauto|]. split; auto. intros. lia.
  - destruct b as [|x b]; [congruence|]. eexists. split; [apply ring_ok_full; auto|]. split.
    + intros H. rewrite app_length in H. lia.
    + intros _. exists x, (b ++ a). split; [reflexivity|]. rewrite app_assoc. reflexivity.
Qed.

Lemma ring_first n ts rd wr : 2 <= n -> ts <> 0 -> ring n (save (hist_init n) (ROk ts rd wr)) [mkH ts rd wr 0 0].
Proof.
  intros N T. destruct n as [|[|n]]; try lia. unfold hist_init. cbn [save hi_buf hi_next hi_prev repeat mod_nth length].
  rewrite repeat_length. cbn [Nat.leb h0 h_to h_err].
  apply (ring_part (S (S n)) [mkH ts rd wr 0 0] (h0 :: repeat h0 n)); cbn; auto; try lia; try discriminate.
  - rewrite repeat_length. lia.
  - constructor; auto. clear. induction n; cbn; constructor; auto.
Qed.

Lemma lastn_small {A} n (l : list A) : length l <= n -> lastn n l = l.
Proof. intros H. unfold lastn. replace (length l - n) with 0 by lia. reflexivity. Qed.
Lemma lastn_length {A} n (l : list A) : n <= length l -> length (lastn n l) = n.
Proof. intros H. unfold lastn. rewrite skipn_length. lia. Qed.
Lemma skipn_S {A} k (l : list A) y r : skipn k l = y :: r -> skipn (S k) l = r.
Proof. revert l; induction k; intros [|x l] H; cbn in *; try discriminate; [congruence|]. apply (IHk l H). Qed.
Lemma lastn_snoc {A} n (l : list A) x y r :
  n <= length l -> lastn n l = y :: r -> lastn n (l ++ [x]) = r ++ [x].
Proof.
  intros H E. unfold lastn in *. rewrite app_length. cbn [length].
  replace (length l + 1 - n) with (S (length l - n)) by lia.
  assert (L : S (length l - n) <= length l).
  { pose proof (f_equal (@length A) E) as F. rewrite skipn_length in F. cbn in F. lia. }
  rewrite skipn_app. replace (S (length l - n) - length l) with 0 by lia. cbn [skipn]. f_equal.
  apply (skipn_S _ _ _ _ E).
Qed.

Lemma real_snoc es e : real (es ++ [e]) -> es <> [] -> real es /\ match e with ROk ts _ _ => ts <> 0 | _ => True end.
Proof.
  intros [A B] N. apply Forall_app in A. destruct A as [A1 A2]. inversion A2; subst.
  split; auto. split; auto. destruct es as [|x es]; [congruence|]. exact B.
Qed.

Lemma groups_nonempty es : real es -> es <> [] -> groups es <> [].
Proof. intros [_ B] N. destruct es as [|[] es]; try congruence; try contradiction. discriminate. Qed.

Lemma strip_lastn n l : map strip (lastn n l) = lastn n (map strip l).
Proof. unfold lastn. rewrite map_length, skipn_map. reflexivity. Qed.

Lemma invariant n es : 2 <= n -> real es -> es <> [] ->
  exists l, ring n (saves (hist_init n) es) l
    /\ map strip l = map strip (lastn n (groups es))
    /\ (length (groups es) <= n -> l = groups es).
Proof.
  intros N. induction es as [|e es IH] using List.rev_ind; [congruence|]. intros R _.
  destruct (list_eq_dec (fun a b : rev => ltac:(decide equality; apply Nat.eq_dec)) es []) as [->|NE].
  - destruct R as [R1 R2]. cbn [app] in *. destruct e; try contradiction. inversion R1; subst.
    exists [mkH ts rd wr 0 0]. split; [apply ring_first; auto|]. cbn [groups timeouts errors].
    split; auto. rewrite lastn_small by (cbn; lia). reflexivity.
  - destruct (real_snoc _ _ R NE) as [R1 TE]. destruct (IH R1 NE) as (l & I & S & G).
    unfold saves in *. rewrite fold_left_app. cbn [fold_left]. fold (saves (hist_init n) es) in *.
    pose proof (ring_length _ _ _ I) as LL.
    pose proof (f_equal (@length _) S) as SL. rewrite !map_length in SL.
    destruct (is_ok e) eqn:OK.
    + destruct e as [ts rd wr| |]; try discriminate. rewrite groups_ok.
      destruct (ring_ok n _ l ts rd wr N TE I) as (l' & I' & A & B). exists l'. split; [exact I'|].
      destruct (Nat.lt_ge_cases (length (groups es)) n) as [LT|GE].
      * rewrite lastn_small in SL by lia. rewrite A by lia. rewrite G by lia.
        split; [|auto]. rewrite lastn_small; [reflexivity|]. rewrite app_length. cbn. lia.
      * rewrite lastn_length in SL by lia. destruct (B SL) as (x & r & -> & ->). split.
        -- destruct (lastn n (groups es)) as [|y r'] eqn:E; [cbn in S; discriminate|].
           rewrite (lastn_snoc n (groups es) _ y r' GE E). rewrite !map_app. f_equal.
           cbn [map] in S. congruence.
        -- intros L. rewrite app_length in L. cbn in L. lia.
    + destruct (exists_last (groups_nonempty es R1 NE)) as (g & y & EG).
      rewrite (groups_fail es e g y OK EG).
      assert (NL : l <> []).
      { intros ->. cbn [length] in SL. rewrite EG in SL. unfold lastn in SL. rewrite skipn_length, app_length in SL. cbn in SL. lia. }
      destruct (exists_last NL) as (l0 & x & ->).
      exists (l0 ++ [bump e x]). split; [apply (ring_bump _ _ _ _ _ OK I)|]. split.
      * assert (BS : forall h, strip (bump e h) = strip h) by (intros h; destruct e; reflexivity).
        rewrite strip_lastn in S |- *. rewrite ?EG in S. rewrite !map_app in *. cbn [map] in *. rewrite !BS. exact S.
      * intros L. rewrite EG in G. rewrite !app_length in *. cbn [length] in *. specialize (G L).
        apply app_inj_tail in G. destruct G as [-> ->]. reflexivity.
Qed.

(* ---- what holds ---- *)
(* the times and latencies of the last renewals, oldest first, whatever the number of renewals and failures *)
Theorem C57_times_partial : forall n es, 2 <= n -> real es ->
  map strip (report (saves (hist_init n) es)) = map strip (lastn n (groups es)).
Proof.
  intros n es N R. destruct es as [|e es].
  - unfold saves. cbn [fold_left groups]. unfold report, hist_init. cbn [hi_prev hi_next Nat.eqb andb]. rewrite orb_true_r.
    unfold lastn. rewrite skipn_nil. reflexivity.
  - destruct (invariant n (e :: es) N R ltac:(discriminate)) as (l & I & S & _).
    rewrite (ring_report _ _ _ N I). exact S.
Qed.

(* also the failures, until the first record is overwritten *)
Theorem C57_counts_partial : forall n es, 2 <= n -> real es ->
  length (groups es) <= n -> report (saves (hist_init n) es) = groups es.
Proof.
  intros n es N R L. destruct es as [|e es].
  - unfold saves. cbn [fold_left groups]. unfold report, hist_init. cbn [hi_prev hi_next Nat.eqb andb]. rewrite orb_true_r. reflexivity.
  - destruct (invariant n (e :: es) N R ltac:(discriminate)) as (l & I & _ & G).
    rewrite (ring_report _ _ _ N I). auto.
Qed.

Example C57_nonvacuous :
  report (saves (hist_init 3) [ROk 10 0 0; RTimeout; RError; ROk 30 4 5; ROk 50 6 7; RTimeout])
  = [mkH 10 0 0 1 1; mkH 30 4 5 0 0; mkH 50 6 7 1 0].
Proof. vm_compute. reflexivity. Qed.

Print Assumptions C57_refuted.
Print Assumptions C57_one_entry.
Print Assumptions C57_times_partial.
Print Assumptions C57_counts_partial.
