(* C54: every accepted client command is run exactly once, in order, and none is forgotten *)
From Coq Require Import List Arith Lia Bool Permutation.
From Verif Require Import ThreadPool.
Import ListNotations.

(* ---- specification ---- *)
(* the results of the calls of thread_pool_add_work in a run: the commands for which it returned 0 *)
Fixpoint accepted (max : nat) (s : pool) (es : list pev) : list nat :=
  match es with
  | [] => []
  | e :: r =>
      match pstep max s e with
      | None => []
      | Some s' =>
          (match e with EAdd a ok wake => if fst (add_work max s a ok wake) then [a] else [] | _ => [] end)
          ++ accepted max s' r
      end
  end.

(* what the workers do in a run: commands in the order in which they are begun ... *)
Definition begins (s s' : pool) (w : nat) : list nat :=
  match nth_error (p_ws s) w, nth_error (p_ws s') w with
  | Some (WRun _), _ => []
  | _, Some (WRun a) => [a]
  | _, _ => []
  end.
Fixpoint begun (max : nat) (s : pool) (es : list pev) : list nat :=
  match es with
  | [] => []
  | e :: r =>
      match pstep max s e with
      | None => []
      | Some s' => (match e with EEnter w => begins s s' w | _ => [] end) ++ begun max s' r
      end
  end.
(* ... and ended *)
Fixpoint ended (max : nat) (s : pool) (es : list pev) : list nat :=
  match es with
  | [] => []
  | e :: r =>
      match pstep max s e with
      | None => []
      | Some s' =>
          (match e with
           | EFinish w => match nth_error (p_ws s) w with Some (WRun a) => [a] | _ => [] end
           | _ => [] end) ++ ended max s' r
      end
  end.

(* ---- the ghost lists are these ---- *)
Lemma step_acc max s e s' :
  pstep max s e = Some s' ->
  p_acc s' = p_acc s ++ (match e with EAdd a ok wake => if fst (add_work max s a ok wake) then [a] else [] | _ => [] end).
Proof.
  destruct e; cbn [pstep].
  - unfold add_work. destruct (p_quit s); [intros E; injection E as <-; cbn; rewrite app_nil_r; auto|].
    destruct (_ && negb create_ok); intros E; injection E as <-; cbn; rewrite ?app_nil_r; auto.
  - destruct (nth_error (p_ws s) w) as [[]|]; try discriminate; intros E; injection E as <-;
      rewrite app_nil_r; unfold go_on; cbn; destruct (p_q s); try destruct (p_quit s); reflexivity.
  - destruct (nth_error (p_ws s) w) as [[]|]; try discriminate; intros E; injection E as <-; cbn; rewrite app_nil_r; auto.
  - destruct (nth_error (p_ws s) w) as [[]|]; try discriminate; intros E; injection E as <-; cbn; rewrite app_nil_r; auto.
  - destruct (p_main s); try discriminate. destruct (Nat.ltb 0 (p_num s)); intros E; injection E as <-; cbn; rewrite app_nil_r; auto.
  - destruct (p_main s); try discriminate; intros E; injection E as <-; cbn; rewrite app_nil_r; auto.
  - destruct (p_main s); try discriminate; intros E; injection E as <-; cbn; rewrite app_nil_r; auto.
Qed.

Lemma go_on_started s w old :
  nth_error (p_ws s) w = Some old -> (forall a, old <> WRun a) ->
  p_started (go_on s w) = p_started s ++ begins s (go_on s w) w.
Proof.
  intros H N. unfold begins. rewrite H. unfold go_on. destruct (p_q s) as [|a r]; [destruct (p_quit s)|];
    cbn [p_ws p_started]; rewrite nth_error_upd, Nat.eqb_refl, H;
    destruct old; try (exfalso; eapply N; reflexivity); rewrite ?app_nil_r; reflexivity.
Qed.

Lemma step_started max s e s' :
  pstep max s e = Some s' ->
  p_started s' = p_started s ++ (match e with EEnter w => begins s s' w | _ => [] end).
Proof.
  destruct e; cbn [pstep].
  - unfold add_work. destruct (p_quit s); [intros E; injection E as <-; cbn; rewrite app_nil_r; auto|].
    destruct (_ && negb create_ok); intros E; injection E as <-; cbn; rewrite ?app_nil_r; auto.
  - destruct (nth_error (p_ws s) w) as [[]|] eqn:H; try discriminate; intros E; injection E as <-.
      all: [> apply (go_on_started s _ _ H)
      |apply (go_on_started (mkPool (p_q s) (p_ws s) (p_free s - 1) (p_num s) (p_quit s) (p_main s)
                (p_acc s) (p_started s) (p_done s)) _ _ H)
      |apply (go_on_started s _ _ H)]; congruence.
  - destruct (nth_error (p_ws s) w) as [[]|]; try discriminate; intros E; injection E as <-; cbn; rewrite app_nil_r; auto.
  - destruct (nth_error (p_ws s) w) as [[]|]; try discriminate; intros E; injection E as <-; cbn; rewrite app_nil_r; auto.
  - destruct (p_main s); try discriminate. destruct (Nat.ltb 0 (p_num s)); intros E; injection E as <-; cbn; rewrite app_nil_r; auto.
  - destruct (p_main s); try discriminate; intros E; injection E as <-; cbn; rewrite app_nil_r; auto.
  - destruct (p_main s); try discriminate; intros E; injection E as <-; cbn; rewrite app_nil_r; auto.
Qed.

Lemma step_done max s e s' :
  pstep max s e = Some s' ->
  p_done s' = p_done s ++ (match e with
           | EFinish w => match nth_error (p_ws s) w with Some (WRun a) => [a] | _ => [] end
           | _ => [] end).
Proof.
  destruct e; cbn [pstep].
  - unfold add_work. destruct (p_quit s); [intros E; injection E as <-; cbn; rewrite app_nil_r; auto|].
    destruct (_ && negb create_ok); intros E; injection E as <-; cbn; rewrite ?app_nil_r; auto.
  - destruct (nth_error (p_ws s) w) as [[]|]; try discriminate; intros E; injection E as <-;
      rewrite app_nil_r; unfold go_on; cbn; destruct (p_q s); try destruct (p_quit s); reflexivity.
  - destruct (nth_error (p_ws s) w) as [[]|]; try discriminate; intros E; injection E as <-; reflexivity.
  - destruct (nth_error (p_ws s) w) as [[]|]; try discriminate; intros E; injection E as <-; cbn; rewrite app_nil_r; auto.
  - destruct (p_main s); try discriminate. destruct (Nat.ltb 0 (p_num s)); intros E; injection E as <-; cbn; rewrite app_nil_r; auto.
  - destruct (p_main s); try discriminate; intros E; injection E as <-; cbn; rewrite app_nil_r; auto.
  - destruct (p_main s); try discriminate; intros E; injection E as <-; cbn; rewrite app_nil_r; auto.
Qed.

Lemma ghosts max es s s' :
  psteps max s es = Some s' ->
  p_acc s' = p_acc s ++ accepted max s es
  /\ p_started s' = p_started s ++ begun max s es
  /\ p_done s' = p_done s ++ ended max s es.
Proof.
  revert s; induction es as [|e es IH]; intros s H; cbn [psteps] in H.
  - injection H as <-. cbn. rewrite !app_nil_r. auto.
  - cbn [accepted begun ended]. destruct (pstep max s e) as [s1|] eqn:E; [|discriminate].
    destruct (IH _ H) as (A & B & C). rewrite A, B, C, (step_acc _ _ _ _ E), (step_started _ _ _ _ E), (step_done _ _ _ _ E).
    rewrite <- !app_assoc. auto.
Qed.

(* ---- theorems ---- *)
(* the commands begun are the first ones of those accepted, in that order, each once;
   those ended are among those begun, each once *)
Theorem C54_exactly_once : forall min max es s,
  1 <= min -> psteps max (pinit min) es = Some s ->
  (exists waiting, accepted max (pinit min) es = begun max (pinit min) es ++ waiting)
  /\ Permutation (begun max (pinit min) es) (ended max (pinit min) es ++ running (p_ws s)).
Proof.
  intros min max es s M H. pose proof (pinv_steps _ _ _ _ _ (pinv_init min max M) H) as I.
  destruct (ghosts _ _ _ _ H) as (A & B & C). cbn in A, B, C.
  split.
  - exists (p_q s). rewrite <- A, <- B. apply (i_order _ _ _ I).
  - rewrite <- B, <- C. apply (i_perm _ _ _ I).
Qed.

(* no wake-up is lost: whatever happened before, the workers on their own finish
   everything that was accepted, after a bounded number of their steps *)
Theorem C54_nothing_forgotten : forall min max es s ws s',
  1 <= min -> psteps max (pinit min) es = Some s ->
  forallb worker_ev ws = true -> psteps max s ws = Some s' ->
  length ws <= work s
  /\ ((forall e, worker_ev e = true -> pstep max s' e = None) ->
      Permutation (accepted max (pinit min) es) (ended max (pinit min) (es ++ ws))).
Proof.
  intros min max es s ws s' M H W H'.
  assert (L : forall ws s s', forallb worker_ev ws = true -> psteps max s ws = Some s' -> length ws + work s' <= work s).
  { clear. induction ws as [|e ws IH]; intros s s' W H; cbn [psteps forallb] in *.
    - injection H as <-. cbn. lia.
    - apply andb_true_iff in W. destruct W as [W1 W2]. destruct (pstep max s e) as [s1|] eqn:E; [|discriminate].
      pose proof (work_decreases _ _ _ _ W1 E). specialize (IH _ _ W2 H). cbn [length]. lia. }
  split; [specialize (L _ _ _ W H'); lia|]. intros Q.
  assert (T : psteps max (pinit min) (es ++ ws) = Some s').
  { clear - H H'. revert H. generalize (pinit min). induction es as [|e es IH]; intros p H; cbn [psteps app] in *.
    - injection H as ->. exact H'.
    - destruct (pstep max p e); [auto|discriminate]. }
  pose proof (pinv_steps _ _ _ _ _ (pinv_init min max M) T) as I.
  destruct (ghosts _ _ _ _ T) as (A & B & C). cbn in A, B, C.
  destruct (quiet_done _ _ _ I Q) as [Z1 Z2].
  pose proof (i_order _ _ _ I) as O. rewrite Z1, app_nil_r in O.
  pose proof (i_perm _ _ _ I) as P. rewrite Z2, app_nil_r in P.
  assert (AA : accepted max (pinit min) (es ++ ws) = accepted max (pinit min) es).
  { clear - H H' W. revert H. generalize (pinit min). induction es as [|e es IH]; intros p H; cbn [psteps accepted app] in *.
    - injection H as ->. clear -W. revert s. induction ws as [|e ws IH]; intros s; cbn [accepted]; auto.
      cbn in W. apply andb_true_iff in W. destruct W as [W1 W2].
      destruct (pstep max s e); auto. rewrite IH by auto. destruct e; try discriminate; reflexivity.
    - destruct (pstep max p e); [rewrite IH; auto|discriminate]. }
  rewrite <- AA, <- A, <- C, O. exact P.
Qed.

(* never more workers than the larger of the two limits *)
Theorem C54_number_of_workers : forall min max es s,
  1 <= min -> psteps max (pinit min) es = Some s -> length (p_ws s) <= Nat.max min max.
Proof. intros min max es s M H. apply (i_max _ _ _ (pinv_steps _ _ _ _ _ (pinv_init min max M) H)). Qed.

(* a command refused is none of the worker's business *)
Theorem C54_refused_not_queued : forall max s a ok wake,
  fst (add_work max s a ok wake) = false -> snd (add_work max s a ok wake) = s.
Proof.
  intros max s a ok wake. unfold add_work. destruct (p_quit s); auto. destruct (_ && _); auto. discriminate.
Qed.

(* three commands with two workers and a third one created; one refused after shutdown began *)
Definition C54_run : list pev :=
  [EEnter 0; EAdd 7 true 0; EAdd 8 true 0; EEnter 0; EEnter 1; EAdd 9 true 0; EEnter 2; EFinish 1; EFree; EAdd 5 true 0].
Example C54_nonvacuous :
  option_map (fun s => (p_ws s, p_q s)) (psteps 8 (pinit 2) C54_run) = Some ([WRun 7; WFin; WRun 9], [])
  /\ accepted 8 (pinit 2) C54_run = [7; 8; 9] /\ begun 8 (pinit 2) C54_run = [7; 8; 9] /\ ended 8 (pinit 2) C54_run = [8].
Proof. vm_compute. auto. Qed.

Print Assumptions C54_exactly_once.
Print Assumptions C54_nothing_forgotten.
Print Assumptions C54_number_of_workers.
Print Assumptions C54_refused_not_queued.
