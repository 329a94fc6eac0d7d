(* The script tests of the watchdog daemon, wdmd/main.c:83-96, 840-1109.

   The table scripts[] and the calls that change it: setup_scripts (at the start and
   on SIGHUP) and test_scripts (once per test interval).  What the functions do to
   processes is written to a trace: starting one, collecting its status, killing it.

   Simplifications.
   - A name is a positive number; 0 is the empty name.  Two files of a directory
     have different names.
   - run_count, fail_count, good_count, kill_count and long_count of a slot are only
     printed; they are left out.
   - What the kernel answers is input: whether a script can be started (check_path and
     fork), what waitpid reports, and the clock.  Each pass of the waiting loop takes
     one element of a list; when the list ends before the loop does, the result is
     None: the execution has not come that far.
   - The interval standard_test_interval changes when a client opens the watchdog
     (348-357), so it is given for each test. *)
From Coq Require Import List ZArith Lia Bool Arith ZifyBool.
Import ListNotations.
Open Scope Z_scope.

(* struct script_status, 83-93 *)
Record script := mkScript {
  sc_name : Z;      (* 0: empty *)
  sc_start : Z;
  sc_pid : Z;       (* 0: not running *)
  sc_last : Z }.    (* last_result *)

Definition no_script : script := mkScript 0 0 0 0.

(* MAX_SCRIPTS 8, 95-96 *)
Definition scripts_init : list script :=
  [no_script; no_script; no_script; no_script; no_script; no_script; no_script; no_script].

Inductive sev :=
| EAdd (n : Z)                 (* add_script *)
| ERefused (n : Z)             (* add_script: no space *)
| EStart (n pid t : Z)         (* run_script gave a pid *)
| ERemove (n : Z)              (* run_script failed, the slot is cleared *)
| EReap (n pid r : Z)          (* waitpid gave the end of the process; r = 0: exit status 0 *)
| EKill (pid : Z).             (* kill SIGKILL *)

(* find_script, 840-849 *)
Definition find_script (n : Z) (l : list script) : bool :=
  existsb (fun s => sc_name s =? n) l.

(* add_script, 851-865 *)
Fixpoint add_script (n : Z) (l : list script) : list script * list sev :=
  match l with
  | [] => ([], [ERefused n])
  | s :: r =>
      if sc_name s =? 0 then (mkScript n (sc_start s) (sc_pid s) (sc_last s) :: r, [EAdd n])
      else let '(r', e) := add_script n r in (s :: r', e)
  end.

(* setup_scripts, 915-950; the directory entries that are no hidden files, with the
   result of check_path *)
Fixpoint setup_scripts (dir : list (Z * bool)) (l : list script) : list script * list sev :=
  match dir with
  | [] => (l, [])
  | (n, ok) :: d =>
      if negb ok then setup_scripts d l
      else if find_script n l then setup_scripts d l
      else
        let '(l1, e1) := add_script n l in
        let '(l2, e2) := setup_scripts d l1 in (l2, e1 ++ e2)
  end.

(* the first loop of test_scripts, 964-992, for one slot; r is what run_script returns *)
Definition start_one (std begin r : Z) (s : script) : script * list sev :=
  if sc_name s =? 0 then (s, [])
  else if negb (sc_pid s =? 0) then (s, [])
  else if (sc_last s =? 0) && (begin - sc_start s <? std - 1) then (s, [])
  else if r <=? 0 then (no_script, [ERemove (sc_name s)])
  else (mkScript (sc_name s) begin r (sc_last s), [EStart (sc_name s) r begin]).

Fixpoint start_all (std begin : Z) (rs : list Z) (l : list script) : list script * list sev :=
  match l with
  | [] => ([], [])
  | s :: l' =>
      let '(s1, e1) := start_one std begin (hd 0 rs) s in
      let '(l2, e2) := start_all std begin (tl rs) l' in (s1 :: l2, e1 ++ e2)
  end.

(* what waitpid says about the process of a slot, 1006-1068 *)
Inductive wres :=
| WErr               (* -1 *)
| WNone              (* 0: no change *)
| WExit (c : Z)      (* exited *)
| WSignal            (* terminated by a signal *)
| WOther             (* another change of state, another pid *).

Definition EINTR : Z := 4.

(* one slot in the waiting loop, 999-1075; now is what monotime() returns at 1073.
   The result: the slot, whether it counts as running, whether it counts as failed *)
Definition wait_one (ksec now : Z) (w : wres) (s : script) : script * bool * bool * list sev :=
  if sc_name s =? 0 then (s, false, false, [])
  else if sc_pid s =? 0 then (s, false, false, [])
  else
    let '(s1, run, bad, e) :=
      match w with
      | WExit c =>
          (mkScript (sc_name s) (sc_start s) 0 c, false, negb (c =? 0),
           [EReap (sc_name s) (sc_pid s) c])
      | WSignal =>
          (mkScript (sc_name s) (sc_start s) 0 EINTR, false, true,
           [EReap (sc_name s) (sc_pid s) EINTR])
      | _ => (s, true, false, [])
      end in
    (s1, run, bad,
     e ++ if negb (sc_pid s1 =? 0) && negb (ksec =? 0) && (ksec <=? now - sc_start s1)
          then [EKill (sc_pid s1)] else []).

Definition b2z (b : bool) : Z := if b then 1 else 0.

Fixpoint wait_all (ksec : Z) (ws : list (wres * Z)) (l : list script)
  : list script * bool * Z * list sev :=
  match l with
  | [] => ([], false, 0, [])
  | s :: l' =>
      let '(w, now) := hd (WNone, 0) ws in
      let '(s1, r1, b1, e1) := wait_one ksec now w s in
      let '(l2, r2, b2, e2) := wait_all ksec (tl ws) l' in
      (s1 :: l2, r1 || r2, b2z b1 + b2, e1 ++ e2)
  end.

(* the waiting loop, 996-1085; each pass comes with the answers of waitpid and the
   time read at 1081 *)
Fixpoint wait_loop (std begin ksec : Z) (passes : list (list (wres * Z) * Z)) (l : list script)
  : option (list script * bool * Z * list sev) :=
  match passes with
  | [] => None
  | (ws, now) :: p =>
      let '(l1, run, bad, e) := wait_all ksec ws l in
      if negb run then Some (l1, false, bad, e)
      else if std - 1 <=? now - begin then Some (l1, true, bad, e)
      else match wait_loop std begin ksec p l1 with
           | None => None
           | Some (l2, run2, bad2, e2) => Some (l2, run2, bad + bad2, e ++ e2)
           end
  end.

(* the last loop, 1094-1109: slots that are still running *)
Fixpoint too_long (l : list script) : Z :=
  match l with
  | [] => 0
  | s :: r => b2z (negb (sc_name s =? 0) && negb (sc_pid s =? 0)) + too_long r
  end.

Record test_in := mkTestIn {
  ti_begin : Z;
  ti_std : Z;                              (* standard_test_interval *)
  ti_ksec : Z;                             (* kill_script_sec *)
  ti_starts : list Z;                      (* what run_script returns per slot *)
  ti_passes : list (list (wres * Z) * Z) }.

(* test_scripts, 952-1113, when scripts are allowed: the table, the value returned *)
Definition test_scripts (x : test_in) (l : list script) : option (list script * Z * list sev) :=
  let '(l1, e1) := start_all (ti_std x) (ti_begin x) (ti_starts x) l in
  match wait_loop (ti_std x) (ti_begin x) (ti_ksec x) (ti_passes x) l1 with
  | None => None
  | Some (l2, run, bad, e2) =>
      Some (l2, if run then bad + too_long l2 else bad, e1 ++ e2)
  end.

(* the daemon: reading the directory, testing.  The clock does not go back, the
   interval is at least one second and a running process has a positive pid. *)
Inductive scall := SSetup (dir : list (Z * bool)) | STest (x : test_in).

Record sstate := mkSs {
  ss_tab : list script;
  ss_now : Z;
  ss_tr : list sev }.

Definition ss_init : sstate := mkSs scripts_init 0 [].

Definition good_dir (dir : list (Z * bool)) : Prop := forall n ok, In (n, ok) dir -> 0 < n.

Inductive sstep : sstate -> scall -> sstate -> Z -> Prop :=
| sst_setup s dir l e :
    good_dir dir -> setup_scripts dir (ss_tab s) = (l, e) ->
    sstep s (SSetup dir) (mkSs l (ss_now s) (ss_tr s ++ e)) 0
| sst_test s x l rv e :
    ss_now s <= ti_begin x -> 1 <= ti_std x ->
    test_scripts x (ss_tab s) = Some (l, rv, e) ->
    sstep s (STest x) (mkSs l (ti_begin x) (ss_tr s ++ e)) rv.

Inductive sreach : sstate -> Prop :=
| sr_init : sreach ss_init
| sr_step s c s' rv : sreach s -> sstep s c s' rv -> sreach s'.

(* ---------------------------------------------------------------- the trace *)

(* what a trace says about a script: not in the table; never run; running since t;
   the last run was started at t and gave r *)
Inductive rstate := ROut | RNone | RRun (pid t : Z) | RDone (t r : Z).

Definition started_at (st : rstate) : Z :=
  match st with RRun _ t | RDone t _ => t | _ => 0 end.

Definition upd_rs (n : Z) (st : rstate) (e : sev) : rstate :=
  match e with
  | EAdd m => if m =? n then RNone else st
  | EStart m pid t => if m =? n then RRun pid t else st
  | ERemove m => if m =? n then ROut else st
  | EReap m _ r => if m =? n then RDone (started_at st) r else st
  | ERefused _ | EKill _ => st
  end.

Definition after (n : Z) (e : list sev) (st : rstate) : rstate := fold_left (upd_rs n) e st.

Definition run_state (n : Z) (tr : list sev) : rstate := after n tr ROut.

Lemma after_app n e1 e2 st : after n (e1 ++ e2) st = after n e2 (after n e1 st).
Proof. apply fold_left_app. Qed.

Definition about (n : Z) (e : sev) : Prop :=
  match e with
  | EAdd m | EStart m _ _ | ERemove m | EReap m _ _ => m = n
  | ERefused _ | EKill _ => True
  end.

Lemma after_other n m e st : (forall x, In x e -> about m x) -> n <> m -> after n e st = st.
Proof.
  unfold after. revert st; induction e as [|x e IH]; intros st A N; cbn; auto.
  rewrite IH; auto with datatypes.
  pose proof (A x (or_introl eq_refl)) as B.
  destruct x; cbn in *; auto; subst; destruct (Z.eqb_spec m n); auto; lia.
Qed.

(* ---------------------------------------------------------------- slots *)

Definition slot_ok (now : Z) (st : Z -> rstate) (s : script) : Prop :=
  if sc_name s =? 0 then s = no_script
  else 0 < sc_name s /\ 0 <= sc_start s <= now /\
    match st (sc_name s) with
    | ROut => False
    | RNone => sc_pid s = 0 /\ sc_last s = 0 /\ sc_start s = 0
    | RRun p t => sc_pid s = p /\ 0 < p /\ sc_start s = t
    | RDone t r => sc_pid s = 0 /\ sc_last s = r /\ sc_start s = t
    end.

Definition names (l : list script) : list Z :=
  filter (fun n => negb (n =? 0)) (map sc_name l).

Lemma names_cons s l :
  names (s :: l) = if sc_name s =? 0 then names l else sc_name s :: names l.
Proof. unfold names; cbn. destruct (sc_name s =? 0); auto. Qed.

Lemma in_names s l : In s l -> sc_name s <> 0 -> In (sc_name s) (names l).
Proof. intros I N. apply filter_In. split; [now apply in_map|lia]. Qed.

(* a step of one slot *)
Definition slot_step (now : Z) (s s' : script) (e : list sev) : Prop :=
  (forall x, In x e -> about (sc_name s) x) /\
  (sc_name s' = sc_name s \/ sc_name s' = 0) /\
  (forall now0 st, now0 <= now -> slot_ok now0 st s ->
     slot_ok now (fun n => after n e (st n)) s' /\
     (sc_name s' <> sc_name s -> after (sc_name s) e (st (sc_name s)) = ROut) /\
     (forall a p b, e = a ++ EKill p :: b ->
        exists t, after (sc_name s) a (st (sc_name s)) = RRun p t)).

Inductive zip (now : Z) : list script -> list script -> list sev -> Prop :=
| zip_nil : zip now [] [] []
| zip_cons s s' l l' e1 e2 :
    slot_step now s s' e1 -> zip now l l' e2 -> zip now (s :: l) (s' :: l') (e1 ++ e2).

Definition tab_ok (now : Z) (st : Z -> rstate) (l : list script) : Prop :=
  Forall (slot_ok now st) l /\ NoDup (names l) /\
  (forall n, 0 < n -> st n <> ROut -> In n (names l)).

Lemma slot_ok_ext now st st' s :
  st (sc_name s) = st' (sc_name s) -> slot_ok now st s -> slot_ok now st' s.
Proof. unfold slot_ok. intros <-. auto. Qed.

Lemma slot_ok_mono now now' st s : now <= now' -> slot_ok now st s -> slot_ok now' st s.
Proof.
  unfold slot_ok. destruct (sc_name s =? 0); auto.
  intros L (A & B & C). repeat split; auto; lia.
Qed.

Lemma slot_ok_zero now st st' s : sc_name s = 0 -> slot_ok now st s -> slot_ok now st' s.
Proof. unfold slot_ok. intros ->. cbn. auto. Qed.

Lemma zip_ok now l l' e : zip now l l' e -> forall now0 st, now0 <= now ->
  Forall (slot_ok now0 st) l -> NoDup (names l) ->
  Forall (slot_ok now (fun n => after n e (st n))) l' /\ NoDup (names l') /\
  (forall n, In n (names l') -> In n (names l)) /\
  (forall n, n <> 0 -> ~ In n (names l) -> after n e (st n) = st n) /\
  (forall n, In n (names l) -> ~ In n (names l') -> after n e (st n) = ROut) /\
  (forall a p b, e = a ++ EKill p :: b -> exists n t, after n a (st n) = RRun p t).
Proof.
  induction 1 as [|s s' l l' e1 e2 S Z IH]; intros now0 st L F N.
  { repeat split; auto; cbn; try tauto. intros [|] p b; discriminate. }
  inversion F as [|? ? Fs Fl]; subst.
  destruct S as (SA & SN & SO).
  destruct (SO now0 st L Fs) as (SO1 & SO2 & SO3).
  assert (Nl : NoDup (names l)).
  { rewrite names_cons in N. destruct (sc_name s =? 0); auto. now inversion N. }
  assert (Ns : sc_name s <> 0 -> ~ In (sc_name s) (names l)).
  { intros Q. rewrite names_cons in N. destruct (Z.eqb_spec (sc_name s) 0); [lia|].
    now inversion N. }
  assert (E1 : forall n, n <> sc_name s -> after n e1 (st n) = st n).
  { intros n Q. now apply after_other with (m := sc_name s). }
  assert (Fl1 : Forall (slot_ok now0 (fun n => after n e1 (st n))) l).
  { rewrite Forall_forall in *. intros x I. specialize (Fl x I).
    destruct (Z.eq_dec (sc_name x) 0) as [Q|Q]; [now apply slot_ok_zero with (st := st)|].
    eapply slot_ok_ext; [|exact Fl]. cbn. symmetry. apply E1.
    intros Q2. apply Ns; [congruence|]. rewrite <- Q2. now apply in_names. }
  specialize (IH now0 _ L Fl1 Nl).
  destruct IH as (IF & IN & II & IO & IR & IK).
  assert (E2 : forall n st0, n <> 0 -> ~ In n (names l) -> st0 = after n e1 (st n) ->
     after n (e1 ++ e2) (st n) = st0).
  { intros n st0 Q Q1 ->. rewrite after_app. now apply IO. }
  repeat split.
  - constructor.
    + destruct (Z.eq_dec (sc_name s') 0) as [Q|Q].
      { eapply slot_ok_zero; [exact Q|exact SO1]. }
      eapply slot_ok_ext; [|exact SO1]. cbn.
      destruct SN as [SN|SN]; [|lia]. symmetry. apply E2; auto. rewrite SN in *; auto.
    + rewrite Forall_forall in *. intros x I. specialize (IF x I).
      eapply slot_ok_ext; [|exact IF]. cbn. now rewrite after_app.
  - rewrite names_cons. destruct (Z.eqb_spec (sc_name s') 0) as [Q|Q]; auto.
    constructor; auto. intros I. apply II in I.
    destruct SN as [SN|SN]; [|lia]. rewrite SN in *. now apply Ns.
  - intros n. rewrite !names_cons. destruct (Z.eqb_spec (sc_name s') 0) as [Q|Q].
    + intros I. destruct (sc_name s =? 0); auto with datatypes.
    + destruct SN as [SN|SN]; [|lia]. rewrite SN in *.
      destruct (Z.eqb_spec (sc_name s) 0); [lia|]. intros [I|I]; [left|right]; auto.
  - intros n Q. rewrite names_cons. destruct (Z.eqb_spec (sc_name s) 0) as [Q0|Q0]; intros I.
    + rewrite (E2 n (after n e1 (st n))); auto; apply E1; congruence.
    + cbn in I. assert (n <> sc_name s) by intuition. rewrite (E2 n (after n e1 (st n))); auto; try (apply E1; auto); intuition.
  - intros n. rewrite !names_cons. intros I I'.
    destruct (Z.eqb_spec (sc_name s) 0) as [Q0|Q0].
    + assert (In n (names l')-> False) as I2.
      { intros J. apply I'. destruct (Z.eqb_spec (sc_name s') 0); cbn; auto. }
      rewrite after_app. apply IR; auto.
    + destruct (Z.eq_dec n (sc_name s)) as [->|D].
      * assert (D' : sc_name s' <> sc_name s).
        { intros D'. rewrite D' in I'. destruct (Z.eqb_spec (sc_name s) 0); [lia|].
          apply I'; cbn; auto. }
        rewrite (E2 (sc_name s) (after (sc_name s) e1 (st (sc_name s))) Q0 (Ns Q0) eq_refl).
        apply SO2; auto.
      * assert (In n (names l)) by (cbn in I; destruct I; [congruence|auto]).
        assert (In n (names l')-> False) as I2.
        { intros J. apply I'. destruct (Z.eqb_spec (sc_name s') 0); cbn; auto. }
        rewrite after_app. apply IR; auto.
  - intros a p b E. apply app_eq_app in E as (m & [[-> E]|[-> E]]).
    + destruct m as [|x m].
      * cbn in E. destruct (IK [] p b (eq_sym E)) as (n & t & H). rewrite app_nil_r in H.
        exists n, t. exact H.
      * injection E as <- E. destruct (SO3 _ _ _ eq_refl) as (t & H). eauto.
    + destruct (IK _ _ _ E) as (n & t & H). exists n, t. now rewrite after_app.
Qed.

Lemma zip_tab now now0 st l l' e : zip now l l' e -> now0 <= now ->
  tab_ok now0 st l -> tab_ok now (fun n => after n e (st n)) l'.
Proof.
  intros Z L (F & N & C). destruct (zip_ok _ _ _ _ Z now0 st L F N) as (A & B & D & O & R & _).
  repeat split; auto. intros n P Q.
  destruct (in_dec Z.eq_dec n (names l')); auto. exfalso. apply Q.
  destruct (in_dec Z.eq_dec n (names l)) as [I|I].
  - now apply R.
  - rewrite O by (auto; lia). destruct (st n) eqn:E; auto; exfalso; apply I; apply C; auto; congruence.
Qed.

Lemma zip_kill now now0 st l l' e : zip now l l' e -> now0 <= now -> tab_ok now0 st l ->
  forall a p b, e = a ++ EKill p :: b -> exists n t, after n a (st n) = RRun p t.
Proof.
  intros Z L (F & N & C). destruct (zip_ok _ _ _ _ Z now0 st L F N) as (_ & _ & _ & _ & _ & K).
  exact K.
Qed.

Lemma tab_ext now st st' l : (forall n, 0 < n -> st n = st' n) -> tab_ok now st l -> tab_ok now st' l.
Proof.
  intros E (F & N & C). repeat split; auto.
  - rewrite Forall_forall in *. intros s I. specialize (F s I).
    unfold slot_ok in *. destruct (Z.eqb_spec (sc_name s) 0); auto.
    destruct F as (P & F). now rewrite <- E.
  - intros n P Q. apply C; auto. now rewrite E.
Qed.

Lemma slot_same now s : slot_step now s s [].
Proof.
  unfold slot_step. split; [cbn; tauto|]. split; auto. intros now0 st L O.
  split; [now apply slot_ok_mono with (now := now0)|]. split; [congruence|].
  intros [|] p b; discriminate.
Qed.

Lemma one_kill (y : sev) a p b : [y] = a ++ EKill p :: b -> y = EKill p /\ a = [].
Proof.
  destruct a as [|z [|]]; cbn; try discriminate. now intros [= -> _].
Qed.

Lemma start_one_step std begin r s s' e :
  0 <= begin -> start_one std begin r s = (s', e) -> slot_step begin s s' e.
Proof.
  intros B. unfold start_one.
  destruct (Z.eqb_spec (sc_name s) 0) as [N|N].
  { intros [= <- <-]. apply slot_same. }
  destruct (Z.eqb_spec (sc_pid s) 0) as [P|P]; cbn [negb].
  2:{ intros [= <- <-]. apply slot_same. }
  destruct ((sc_last s =? 0) && (begin - sc_start s <? std - 1)).
  { intros [= <- <-]. apply slot_same. }
  destruct (Z.leb_spec r 0).
  - intros [= <- <-]. unfold slot_step. split; [|split]; auto.
    + intros x [<-|[]]. cbn. auto.
    + intros now0 st L O. split; [reflexivity|]. split; [cbn; now rewrite Z.eqb_refl|].
      intros a p b E. apply one_kill in E as [E _]. discriminate.
  - intros [= <- <-]. unfold slot_step. split; [|split]; auto.
    + intros x [<-|[]]. cbn. auto.
    + intros now0 st L O. split; [|split; [cbn; congruence|]].
      * unfold slot_ok in *. cbn. destruct (Z.eqb_spec (sc_name s) 0); [lia|].
        rewrite Z.eqb_refl. destruct O as (O1 & O2 & _). repeat split; auto; lia.
      * intros a p b E. apply one_kill in E as [E _]. discriminate.
Qed.

Lemma start_all_zip std begin rs l l' e :
  0 <= begin -> start_all std begin rs l = (l', e) -> zip begin l l' e.
Proof.
  intros B. revert rs l' e; induction l as [|s l IH]; intros rs l' e; cbn.
  { intros [= <- <-]. constructor. }
  destruct (start_one std begin (hd 0 rs) s) as [s1 e1] eqn:S.
  destruct (start_all std begin (tl rs) l) as [l2 e2] eqn:A.
  intros [= <- <-]. constructor; [now apply start_one_step in S|]. now apply IH in A.
Qed.

Lemma wait_one_step begin ksec now w s s' r b e :
  wait_one ksec now w s = (s', r, b, e) -> slot_step begin s s' e.
Proof.
  unfold wait_one.
  destruct (Z.eqb_spec (sc_name s) 0) as [N|N].
  { intros [= <- <- <- <-]. apply slot_same. }
  destruct (Z.eqb_spec (sc_pid s) 0) as [P|P].
  { intros [= <- <- <- <-]. apply slot_same. }
  assert (K : forall s2 r2 b2, (s2, r2, b2,
      [] ++ (if negb (sc_pid s2 =? 0) && negb (ksec =? 0) && (ksec <=? now - sc_start s2)
             then [EKill (sc_pid s2)] else [])) = (s', r, b, e) -> s2 = s -> slot_step begin s s' e).
  { intros s2 r2 b2 [= <- <- <- <-] ->. cbn [app].
    destruct (_ && _); [|apply slot_same].
    unfold slot_step. split; [|split]; auto.
    - intros x [<-|[]]. cbn. auto.
    - intros now0 st L O. split; [exact (slot_ok_mono _ _ _ _ L O)|]. split; [congruence|].
      intros a p b' E. apply one_kill in E as [[= E] ->]. cbn.
      unfold slot_ok in O. destruct (Z.eqb_spec (sc_name s) 0); [lia|].
      destruct O as (_ & _ & O). destruct (st (sc_name s)); try lia.
      exists t. f_equal. lia. }
  assert (R : forall c bb, (mkScript (sc_name s) (sc_start s) 0 c, false, bb,
       [EReap (sc_name s) (sc_pid s) c] ++
       (if negb (0 =? 0) && negb (ksec =? 0) && (ksec <=? now - sc_start s)
             then [EKill 0] else [])) = (s', r, b, e) -> slot_step begin s s' e).
  { intros c bb [= <- <- <- <-]. cbn.
    unfold slot_step. split; [|split]; auto.
    - intros x [<-|[]]. cbn. auto.
    - intros now0 st L O. cbn. split; [|split; [congruence|]].
      + unfold slot_ok in *. cbn. destruct (Z.eqb_spec (sc_name s) 0); [lia|].
        rewrite Z.eqb_refl. destruct O as (O1 & O2 & O3). repeat split; auto; try lia.
        destruct (st (sc_name s)); cbn; lia.
      + intros a p b' E. apply one_kill in E as [E _]. discriminate. }
  destruct w; intros E; eauto.
Qed.

Lemma wait_all_zip begin ksec ws l l' r b e :
  wait_all ksec ws l = (l', r, b, e) -> zip begin l l' e.
Proof.
  revert ws l' r b e; induction l as [|s l IH]; intros ws l' r b e; cbn.
  { intros [= <- <- <- <-]. constructor. }
  destruct (hd (WNone, 0) ws) as [w now].
  destruct (wait_one ksec now w s) as [[[s1 r1] b1] e1] eqn:S.
  destruct (wait_all ksec (tl ws) l) as [[[l2 r2] b2] e2] eqn:A.
  intros [= <- <- <- <-]. constructor; [now apply wait_one_step with (begin := begin) in S|].
  now apply IH in A.
Qed.

Lemma wait_loop_tab std begin ksec p l l' r b e st :
  wait_loop std begin ksec p l = Some (l', r, b, e) ->
  tab_ok begin st l -> tab_ok begin (fun n => after n e (st n)) l'.
Proof.
  revert l l' r b e st; induction p as [|[ws now] p IH]; intros l l' r b e st; cbn; [discriminate|].
  destruct (wait_all ksec ws l) as [[[l1 run] bad] e1] eqn:W.
  pose proof (wait_all_zip begin _ _ _ _ _ _ _ W) as Z.
  intros H T. pose proof (zip_tab _ begin st _ _ _ Z (Z.le_refl _) T) as T1.
  destruct (negb run); [injection H as <- <- <- <-; auto|].
  destruct (std - 1 <=? now - begin); [injection H as <- <- <- <-; auto|].
  destruct (wait_loop std begin ksec p l1) as [[[[l2 run2] bad2] e2]|] eqn:L; [|discriminate].
  injection H as <- <- <- <-.
  pose proof (IH _ _ _ _ _ _ L T1) as T2.
  eapply tab_ext; [|exact T2]. intros n _. cbn. now rewrite after_app.
Qed.

(* every kill of a list of events goes to a running process *)
Definition kills_ok (st : Z -> rstate) (e : list sev) : Prop :=
  forall a p b, e = a ++ EKill p :: b -> exists n t, after n a (st n) = RRun p t.

Lemma kills_app st e1 e2 :
  kills_ok st e1 -> kills_ok (fun n => after n e1 (st n)) e2 -> kills_ok st (e1 ++ e2).
Proof.
  intros K1 K2 a p b E. apply app_eq_app in E as (m & [[-> E]|[-> E]]).
  - destruct m as [|x m].
    + cbn in E. destruct (K2 [] p b (eq_sym E)) as (n & t & H). rewrite app_nil_r in H.
      exists n, t. exact H.
    + injection E as <- E. exact (K1 _ _ _ eq_refl).
  - destruct (K2 _ _ _ E) as (n & t & H). exists n, t. now rewrite after_app.
Qed.

Lemma kills_none st e : (forall p, ~ In (EKill p) e) -> kills_ok st e.
Proof. intros H a p b ->. destruct (H p). apply in_or_app. cbn. auto. Qed.

Lemma wait_loop_kills std begin ksec p l l' r b e st :
  wait_loop std begin ksec p l = Some (l', r, b, e) -> tab_ok begin st l -> kills_ok st e.
Proof.
  revert l l' r b e st; induction p as [|[ws now] p IH]; intros l l' r b e st; cbn; [discriminate|].
  destruct (wait_all ksec ws l) as [[[l1 run] bad] e1] eqn:W.
  pose proof (wait_all_zip begin _ _ _ _ _ _ _ W) as Z.
  intros H T. pose proof (zip_tab _ begin st _ _ _ Z (Z.le_refl _) T) as T1.
  pose proof (zip_kill _ begin st _ _ _ Z (Z.le_refl _) T) as K1.
  destruct (negb run); [injection H as <- <- <- <-; auto|].
  destruct (std - 1 <=? now - begin); [injection H as <- <- <- <-; auto|].
  destruct (wait_loop std begin ksec p l1) as [[[[l2 run2] bad2] e2]|] eqn:L; [|discriminate].
  injection H as <- <- <- <-.
  apply kills_app; auto. exact (IH _ _ _ _ _ _ L T1).
Qed.

(* ---------------------------------------------------------------- setup *)

Lemma after_add n m st : after n [EAdd m] st = if m =? n then RNone else st.
Proof. reflexivity. Qed.

Lemma add_script_cases n l l' e : add_script n l = (l', e) ->
  (l' = l /\ e = [ERefused n] /\ Forall (fun s => sc_name s <> 0) l) \/
  (e = [EAdd n] /\ exists l1 s l2, l = l1 ++ s :: l2 /\ sc_name s = 0 /\
     l' = l1 ++ mkScript n (sc_start s) (sc_pid s) (sc_last s) :: l2).
Proof.
  revert l' e; induction l as [|s l IH]; intros l' e; cbn.
  { intros [= <- <-]. auto. }
  destruct (Z.eqb_spec (sc_name s) 0).
  - intros [= <- <-]. right. split; auto. exists [], s, l. auto.
  - destruct (add_script n l) as [r' e'] eqn:A. intros [= <- <-].
    destruct (IH _ _ eq_refl) as [(-> & -> & F)|(-> & l1 & s1 & l2 & -> & N1 & ->)].
    + left. auto.
    + right. split; auto. exists (s :: l1), s1, l2. auto.
Qed.

Lemma names_app l1 l2 : names (l1 ++ l2) = names l1 ++ names l2.
Proof. unfold names. now rewrite map_app, filter_app. Qed.

Lemma find_script_names n l : 0 < n -> find_script n l = false -> ~ In n (names l).
Proof.
  intros P F I. apply filter_In in I. destruct I as [I _].
  apply in_map_iff in I. destruct I as (s & <- & I).
  assert (find_script (sc_name s) l = true) as C.
  { apply existsb_exists. exists s. split; auto. lia. }
  congruence.
Qed.

Lemma add_script_tab now n l l' e st :
  0 < n -> 0 <= now -> find_script n l = false -> add_script n l = (l', e) ->
  tab_ok now st l -> tab_ok now (fun m => after m e (st m)) l'.
Proof.
  intros P Q F A (T & N & C). apply find_script_names in F; auto.
  destruct (add_script_cases _ _ _ _ A) as [(-> & -> & _)|(-> & l1 & s & l2 & -> & N1 & ->)].
  { repeat split; auto. }
  assert (S0 : s = no_script).
  { rewrite Forall_forall in T. specialize (T s). unfold slot_ok in T. rewrite N1 in T.
    apply T. apply in_or_app. cbn. auto. }
  subst s.
  assert (NE : names (l1 ++ mkScript n (sc_start no_script) (sc_pid no_script) (sc_last no_script) :: l2)
     = names l1 ++ n :: names l2).
  { rewrite names_app, names_cons. cbn. destruct (Z.eqb_spec n 0); auto; lia. }
  assert (NE0 : names (l1 ++ no_script :: l2) = names l1 ++ names l2) by now rewrite names_app, names_cons.
  rewrite NE0 in *.
  assert (X : forall m, In m (names l1 ++ names l2) -> after m [EAdd n] (st m) = st m).
  { intros m I. rewrite after_add. destruct (Z.eqb_spec n m); auto. subst. contradiction. }
  repeat split.
  - rewrite Forall_forall in *. intros x I. apply in_app_or in I.
    assert (Y : In x (l1 ++ l2) -> slot_ok now (fun m => after m [EAdd n] (st m)) x).
    { intros J. assert (In x (l1 ++ no_script :: l2)) as J'.
      { apply in_app_or in J. apply in_or_app. cbn. intuition. }
      specialize (T x J'). destruct (Z.eq_dec (sc_name x) 0) as [Z0|Z0].
      - eapply slot_ok_zero; eauto.
      - eapply slot_ok_ext; [|exact T]. symmetry. apply X.
        rewrite <- names_app. now apply in_names. }
    destruct I as [I|[<-|I]]; [apply Y; apply in_or_app; auto| |apply Y; apply in_or_app; auto].
    unfold slot_ok. cbn [sc_name sc_start sc_pid sc_last no_script]. destruct (Z.eqb_spec n 0); [lia|]. rewrite after_add, Z.eqb_refl. repeat split; lia.
  - rewrite NE. apply NoDup_Add with (a := n) (l := names l1 ++ names l2); [apply Add_app|]. auto.
  - intros m Pm. rewrite NE, after_add. destruct (Z.eqb_spec n m).
    + intros _. subst. apply in_or_app. cbn. auto.
    + intros H. apply C in H; auto. apply in_app_or in H. apply in_or_app. cbn. intuition.
Qed.

Lemma setup_tab now dir l l' e st :
  good_dir dir -> 0 <= now -> setup_scripts dir l = (l', e) ->
  tab_ok now st l -> tab_ok now (fun m => after m e (st m)) l'.
Proof.
  intros G Q. revert l l' e st; induction dir as [|[n ok] d IH]; intros l l' e st; cbn.
  { intros [= <- <-]. auto. }
  assert (G' : good_dir d) by (intros m b I; apply (G m b); cbn; auto).
  specialize (IH G').
  destruct ok; cbn [negb]; [|apply IH].
  destruct (find_script n l) eqn:F; [apply IH|].
  destruct (add_script n l) as [l1 e1] eqn:A.
  destruct (setup_scripts d l1) as [l2 e2] eqn:S.
  intros [= <- <-] T. assert (P : 0 < n) by (apply (G n true); cbn; auto).
  pose proof (add_script_tab _ _ _ _ _ _ P Q F A T) as T1.
  pose proof (IH _ _ _ _ S T1) as T2.
  eapply tab_ext; [|exact T2]. intros m _. cbn. now rewrite after_app.
Qed.

Lemma setup_no_kill dir l l' e : setup_scripts dir l = (l', e) -> forall p, ~ In (EKill p) e.
Proof.
  revert l l' e; induction dir as [|[n ok] d IH]; intros l l' e; cbn; [intros [= <- <-]; auto|].
  destruct (negb ok); [apply IH|]. destruct (find_script n l); [apply IH|].
  destruct (add_script n l) as [l1 e1] eqn:A.
  destruct (setup_scripts d l1) as [l2 e2] eqn:S.
  intros [= <- <-] p I. apply in_app_or in I. destruct I as [I|I]; [|exact (IH _ _ _ S p I)].
  destruct (add_script_cases _ _ _ _ A) as [(_ & -> & _)|(-> & _)];
    cbn in I; destruct I as [I|[]]; discriminate.
Qed.

(* ---------------------------------------------------------------- reachable states *)

Definition sinv (s : sstate) : Prop :=
  0 <= ss_now s /\ tab_ok (ss_now s) (fun n => run_state n (ss_tr s)) (ss_tab s).

Lemma test_tab x l l' rv e st now :
  0 <= now <= ti_begin x -> test_scripts x l = Some (l', rv, e) ->
  tab_ok now st l -> tab_ok (ti_begin x) (fun n => after n e (st n)) l'.
Proof.
  unfold test_scripts. intros L H T.
  destruct (start_all (ti_std x) (ti_begin x) (ti_starts x) l) as [l1 e1] eqn:S.
  destruct (wait_loop (ti_std x) (ti_begin x) (ti_ksec x) (ti_passes x) l1)
    as [[[[l2 run] bad] e2]|] eqn:W; [|discriminate].
  injection H as <- <- <-.
  apply start_all_zip in S; [|lia].
  assert (L' : now <= ti_begin x) by lia.
  pose proof (zip_tab _ now st _ _ _ S L' T) as T1.
  pose proof (wait_loop_tab _ _ _ _ _ _ _ _ _ _ W T1) as T2.
  eapply tab_ext; [|exact T2]. intros m _. cbn. now rewrite after_app.
Qed.

Lemma test_kills x l l' rv e st now :
  0 <= now <= ti_begin x -> test_scripts x l = Some (l', rv, e) ->
  tab_ok now st l -> kills_ok st e.
Proof.
  unfold test_scripts. intros L H T.
  destruct (start_all (ti_std x) (ti_begin x) (ti_starts x) l) as [l1 e1] eqn:S.
  destruct (wait_loop (ti_std x) (ti_begin x) (ti_ksec x) (ti_passes x) l1)
    as [[[[l2 run] bad] e2]|] eqn:W; [|discriminate].
  injection H as <- <- <-.
  apply start_all_zip in S; [|lia].
  assert (L' : now <= ti_begin x) by lia.
  pose proof (zip_tab _ now st _ _ _ S L' T) as T1.
  apply kills_app; [exact (zip_kill _ now st _ _ _ S L' T)|].
  exact (wait_loop_kills _ _ _ _ _ _ _ _ _ _ W T1).
Qed.

Lemma sinv_step s c s' rv : sstep s c s' rv -> sinv s -> sinv s'.
Proof.
  destruct 1 as [s dir l e G S|s x l rv e L P T]; intros [N I].
  - split; auto. cbn. eapply tab_ext; [|exact (setup_tab _ _ _ _ _ _ G N S I)].
    intros n _. cbn beta. unfold run_state. symmetry. apply after_app.
  - split; [cbn; lia|]. cbn.
    eapply tab_ext; [|exact (test_tab _ _ _ _ _ _ _ (conj N L) T I)].
    intros n _. cbn beta. unfold run_state. symmetry. apply after_app.
Qed.

Lemma sinv_init : sinv ss_init.
Proof.
  split; [cbn; lia|]. repeat split.
  - repeat constructor.
  - constructor.
  - intros n _ H. now destruct H.
Qed.

Lemma sreach_inv s : sreach s -> sinv s.
Proof. induction 1; [apply sinv_init|eapply sinv_step; eauto]. Qed.

Lemma sreach_kills s : sreach s -> kills_ok (fun _ => ROut) (ss_tr s).
Proof.
  induction 1 as [|s c s' rv R IH S].
  { apply kills_none. auto. }
  destruct (sreach_inv _ R) as [N I].
  destruct S as [s dir l e G S|s x l rv e L P T]; cbn [ss_tr]; apply kills_app; auto.
  - apply kills_none. eapply setup_no_kill; eauto.
  - exact (test_kills _ _ _ _ _ _ _ (conj N L) T I).
Qed.

(* ---------------------------------------------------------------- the value returned *)

Lemma wait_all_nonneg ksec ws l l' r b e : wait_all ksec ws l = (l', r, b, e) -> 0 <= b.
Proof.
  revert ws l' r b e; induction l as [|s l IH]; intros ws l' r b e; cbn; [intros [= _ _ <- _]; lia|].
  destruct (hd (WNone, 0) ws) as [w now].
  destruct (wait_one ksec now w s) as [[[s1 r1] b1] e1] eqn:S.
  destruct (wait_all ksec (tl ws) l) as [[[l2 r2] b2] e2] eqn:A.
  intros [= _ _ <- _]. apply IH in A. unfold b2z. destruct b1; lia.
Qed.

Lemma wait_loop_nonneg std begin ksec p l l' r b e :
  wait_loop std begin ksec p l = Some (l', r, b, e) -> 0 <= b.
Proof.
  revert l l' r b e; induction p as [|[ws now] p IH]; intros l l' r b e; cbn; [discriminate|].
  destruct (wait_all ksec ws l) as [[[l1 run] bad] e1] eqn:W. apply wait_all_nonneg in W.
  destruct (negb run); [intros [= _ _ <- _]; auto|].
  destruct (std - 1 <=? now - begin); [intros [= _ _ <- _]; auto|].
  destruct (wait_loop std begin ksec p l1) as [[[[l2 run2] bad2] e2]|] eqn:L; [|discriminate].
  intros [= _ _ <- _]. apply IH in L. lia.
Qed.

Lemma too_long_nonneg l : 0 <= too_long l.
Proof. induction l; cbn; [lia|]. unfold b2z. destruct (_ && _); lia. Qed.

(* a slot that does not run holds a good result: from the last std - 1 seconds or
   collected in this test *)
Definition fine (std begin : Z) (E : list sev) (s : script) : Prop :=
  sc_name s = 0 \/ sc_pid s <> 0 \/
  (sc_last s = 0 /\ (begin - sc_start s < std - 1 \/ exists p, In (EReap (sc_name s) p 0) E)).

Lemma fine_more std begin E E' s : (forall x, In x E -> In x E') -> fine std begin E s -> fine std begin E' s.
Proof. unfold fine. intros M [A|[A|(A & [B|(p & B)])]]; eauto 7. Qed.

Lemma start_all_fine std begin rs l l' e :
  start_all std begin rs l = (l', e) -> Forall (fine std begin []) l'.
Proof.
  revert rs l' e; induction l as [|s l IH]; intros rs l' e; cbn; [intros [= <- <-]; auto|].
  destruct (start_one std begin (hd 0 rs) s) as [s1 e1] eqn:S.
  destruct (start_all std begin (tl rs) l) as [l2 e2] eqn:A.
  intros [= <- <-]. constructor; [|eauto].
  unfold start_one in S. unfold fine.
  destruct (Z.eqb_spec (sc_name s) 0); [injection S as <- <-; auto|].
  destruct (Z.eqb_spec (sc_pid s) 0); cbn [negb] in S; [|injection S as <- <-; auto].
  destruct ((sc_last s =? 0) && (begin - sc_start s <? std - 1)) eqn:C.
  { injection S as <- <-. right. right. lia. }
  destruct (Z.leb_spec (hd 0 rs) 0); injection S as <- <-; cbn; auto. right. left. lia.
Qed.

Lemma wait_all_fine std begin E ksec ws l l' r b e :
  wait_all ksec ws l = (l', r, b, e) -> Forall (fine std begin E) l -> b = 0 ->
  Forall (fine std begin (E ++ e)) l' /\
  (r = false -> Forall (fun s => sc_name s = 0 \/ sc_pid s = 0) l') /\
  (r = true -> 0 < too_long l').
Proof.
  revert ws l' r b e; induction l as [|s l IH]; intros ws l' r b e; cbn.
  { intros [= <- <- <- <-]. repeat split; auto; discriminate. }
  destruct (hd (WNone, 0) ws) as [w now].
  destruct (wait_one ksec now w s) as [[[s1 r1] b1] e1] eqn:S.
  destruct (wait_all ksec (tl ws) l) as [[[l2 r2] b2] e2] eqn:A.
  intros [= <- <- <- <-] F B. inversion F as [|? ? Fs Fl]; subst.
  pose proof (wait_all_nonneg _ _ _ _ _ _ _ A) as NN.
  assert (b2 = 0 /\ b1 = false) as [B2 ->] by (unfold b2z in B; destruct b1; lia).
  destruct (IH _ _ _ _ _ A Fl B2) as (F2 & R2 & T2).
  assert (W : fine std begin (E ++ e1) s1 /\ (r1 = false -> sc_name s1 = 0 \/ sc_pid s1 = 0) /\
     (r1 = true -> sc_name s1 <> 0 /\ sc_pid s1 <> 0)).
  { unfold wait_one in S. destruct (Z.eqb_spec (sc_name s) 0).
    { injection S as <- <- <-. repeat split; try discriminate; auto. left; auto. }
    destruct (Z.eqb_spec (sc_pid s) 0).
    { injection S as <- <- <-. repeat split; try discriminate; auto.
      eapply fine_more; [|exact Fs]. intros x I. apply in_or_app. auto. }
    destruct w; cbn -[Z.leb Z.sub] in S; try (injection S as <- <- <-;
      repeat split; try discriminate; auto; right; left; auto).
    - destruct (Z.eqb_spec c 0) as [C|C]; cbn in S; [|discriminate].
      injection S as <- <- <-. repeat split; try discriminate; auto.
      right. right. cbn. split; auto. right.
      exists (sc_pid s). apply in_or_app. right. subst. cbn. auto.
    - discriminate. }
  destruct W as (W1 & W2 & W3).
  repeat split.
  - constructor.
    + eapply fine_more; [|exact W1]. intros x I. apply in_or_app. rewrite in_app_iff in *. intuition.
    + rewrite Forall_forall in *. intros x I. eapply fine_more; [|apply F2; auto].
      intros y J. rewrite !in_app_iff in *. intuition.
  - intros R. apply orb_false_iff in R as [R R']. constructor; auto.
  - intros R. cbn [too_long]. pose proof (too_long_nonneg l2). destruct r1.
    + destruct (W3 eq_refl) as [N P].
      destruct (Z.eqb_spec (sc_name s1) 0), (Z.eqb_spec (sc_pid s1) 0); cbn [negb andb b2z]; lia.
    + cbn in R. specialize (T2 R). unfold b2z. destruct (_ && _); lia.
Qed.

Lemma wait_loop_fine std begin E ksec p l l' r b e :
  wait_loop std begin ksec p l = Some (l', r, b, e) -> Forall (fine std begin E) l -> b = 0 ->
  Forall (fine std begin (E ++ e)) l' /\
  (r = false -> Forall (fun s => sc_name s = 0 \/ sc_pid s = 0) l') /\
  (r = true -> 0 < too_long l').
Proof.
  revert l l' r b e E; induction p as [|[ws now] p IH]; intros l l' r b e E; cbn; [discriminate|].
  destruct (wait_all ksec ws l) as [[[l1 run] bad] e1] eqn:W.
  pose proof (wait_all_nonneg _ _ _ _ _ _ _ W) as NN.
  destruct run; cbn [negb].
  2:{ intros [= <- <- <- <-] F B. exact (wait_all_fine _ _ _ _ _ _ _ _ _ _ W F B). }
  destruct (std - 1 <=? now - begin).
  { intros [= <- <- <- <-] F B. exact (wait_all_fine _ _ _ _ _ _ _ _ _ _ W F B). }
  destruct (wait_loop std begin ksec p l1) as [[[[l2 run2] bad2] e2]|] eqn:L; [|discriminate].
  intros [= <- <- <- <-] F B. pose proof (wait_loop_nonneg _ _ _ _ _ _ _ _ _ L).
  assert (bad = 0) as B1 by lia.
  destruct (wait_all_fine _ _ _ _ _ _ _ _ _ _ W F B1) as (F1 & _).
  rewrite app_assoc. eapply IH; eauto. lia.
Qed.

(* a test that fails has a reason *)
Definition bad_reap (e : list sev) : Prop := exists n p r, In (EReap n p r) e /\ r <> 0.

Lemma bad_reap_app e1 e2 : bad_reap e1 \/ bad_reap e2 -> bad_reap (e1 ++ e2).
Proof.
  intros [(n & p & r & I & R)|(n & p & r & I & R)]; exists n, p, r; split; auto;
    apply in_or_app; auto.
Qed.

Lemma wait_all_bad ksec ws l l' r b e : wait_all ksec ws l = (l', r, b, e) -> 0 < b -> bad_reap e.
Proof.
  revert ws l' r b e; induction l as [|s l IH]; intros ws l' r b e; cbn; [intros [= _ _ <- _]; lia|].
  destruct (hd (WNone, 0) ws) as [w now].
  destruct (wait_one ksec now w s) as [[[s1 r1] b1] e1] eqn:S.
  destruct (wait_all ksec (tl ws) l) as [[[l2 r2] b2] e2] eqn:A.
  intros [= _ _ <- <-] B. apply bad_reap_app. destruct b1; [left|right; eapply IH; eauto].
  unfold wait_one in S.
  destruct (sc_name s =? 0); [discriminate|]. destruct (sc_pid s =? 0); [discriminate|].
  destruct w; try discriminate.
  - injection S as _ _ C <-. exists (sc_name s), (sc_pid s), c. split; [|lia].
    left. reflexivity.
  - injection S as _ _ <-. exists (sc_name s), (sc_pid s), EINTR. split; [cbn; auto|easy].
Qed.

Lemma wait_loop_bad std begin ksec p l l' r b e :
  wait_loop std begin ksec p l = Some (l', r, b, e) -> 0 < b -> bad_reap e.
Proof.
  revert l l' r b e; induction p as [|[ws now] p IH]; intros l l' r b e; cbn; [discriminate|].
  destruct (wait_all ksec ws l) as [[[l1 run] bad] e1] eqn:W.
  pose proof (wait_all_bad _ _ _ _ _ _ _ W) as B1.
  destruct (negb run); [intros [= _ _ <- <-]; auto|].
  destruct (std - 1 <=? now - begin); [intros [= _ _ <- <-]; auto|].
  destruct (wait_loop std begin ksec p l1) as [[[[l2 run2] bad2] e2]|] eqn:L; [|discriminate].
  intros [= _ _ <- <-] B. apply bad_reap_app.
  destruct (Z_lt_dec 0 bad); [left; auto|right; eapply IH; eauto; lia].
Qed.

Lemma too_long_in l : 0 < too_long l -> exists s, In s l /\ sc_name s <> 0 /\ sc_pid s <> 0.
Proof.
  induction l as [|s l IH]; cbn [too_long]; [lia|].
  destruct (Z.eqb_spec (sc_name s) 0), (Z.eqb_spec (sc_pid s) 0); cbn [negb andb b2z]; intros H;
    try (destruct IH as (x & I & Q); [lia|]; exists x; cbn; tauto).
  exists s. cbn. auto.
Qed.

(* nothing is added to the table by a test *)
Lemma start_all_no_add std begin rs l l' e n :
  start_all std begin rs l = (l', e) -> ~ In (EAdd n) e.
Proof.
  revert rs l' e; induction l as [|s l IH]; intros rs l' e; cbn; [intros [= <- <-]; auto|].
  destruct (start_one std begin (hd 0 rs) s) as [s1 e1] eqn:S.
  destruct (start_all std begin (tl rs) l) as [l2 e2] eqn:A.
  intros [= <- <-] I. apply in_app_or in I as [I|I]; [|exact (IH _ _ _ A I)].
  unfold start_one in S. repeat (destruct (_ : bool) in S); injection S as <- <-; cbn in I;
    intuition discriminate.
Qed.

Lemma wait_all_no_add ksec ws l l' r b e n : wait_all ksec ws l = (l', r, b, e) -> ~ In (EAdd n) e.
Proof.
  revert ws l' r b e; induction l as [|s l IH]; intros ws l' r b e; cbn; [intros [= _ _ _ <-]; auto|].
  destruct (hd (WNone, 0) ws) as [w now].
  destruct (wait_one ksec now w s) as [[[s1 r1] b1] e1] eqn:S.
  destruct (wait_all ksec (tl ws) l) as [[[l2 r2] b2] e2] eqn:A.
  intros [= _ _ _ <-] I. apply in_app_or in I as [I|I]; [|exact (IH _ _ _ _ _ A I)].
  unfold wait_one in S. destruct (sc_name s =? 0); [injection S as _ _ _ <-; auto|].
  destruct (sc_pid s =? 0); [injection S as _ _ _ <-; auto|].
  destruct w; injection S as _ _ _ <-; cbn [app] in I;
    try (destruct (_ && _) in I); cbn in I; intuition discriminate.
Qed.

Lemma wait_loop_no_add std begin ksec p l l' r b e n :
  wait_loop std begin ksec p l = Some (l', r, b, e) -> ~ In (EAdd n) e.
Proof.
  revert l l' r b e; induction p as [|[ws now] p IH]; intros l l' r b e; cbn; [discriminate|].
  destruct (wait_all ksec ws l) as [[[l1 run] bad] e1] eqn:W.
  pose proof (wait_all_no_add _ _ _ _ _ _ _ n W) as B1.
  destruct (negb run); [intros [= _ _ _ <-]; auto|].
  destruct (std - 1 <=? now - begin); [intros [= _ _ _ <-]; auto|].
  destruct (wait_loop std begin ksec p l1) as [[[[l2 run2] bad2] e2]|] eqn:L; [|discriminate].
  intros [= _ _ _ <-] I. apply in_app_or in I as [I|I]; [auto|exact (IH _ _ _ _ _ L I)].
Qed.

Lemma after_not_none n e st : (forall m, ~ In (EAdd m) e) -> st <> RNone -> after n e st <> RNone.
Proof.
  revert st; induction e as [|x e IH]; intros st A H; cbn; auto.
  apply IH; [intros m I; apply (A m); cbn; auto|].
  destruct x; cbn; auto; try (destruct (_ =? n); congruence).
  destruct (A n0). cbn. auto.
Qed.

Lemma reaped_not_none n e p r st :
  (forall m, ~ In (EAdd m) e) -> In (EReap n p r) e -> after n e st <> RNone.
Proof.
  intros A I. apply in_split in I as (e1 & e2 & ->). rewrite after_app. cbn.
  rewrite Z.eqb_refl. apply after_not_none; [|discriminate].
  intros m J. apply (A m). apply in_or_app. cbn. auto.
Qed.

(* only a failed start takes a script out of the table *)
Lemma start_all_removes std begin rs l l' e n :
  start_all std begin rs l = (l', e) -> In (ERemove n) e ->
  exists i c, nth_error l i = Some c /\ sc_name c = n /\ nth i rs 0 <= 0.
Proof.
  revert rs l' e; induction l as [|s l IH]; intros rs l' e; cbn; [intros [= <- <-] []|].
  destruct (start_one std begin (hd 0 rs) s) as [s1 e1] eqn:S.
  destruct (start_all std begin (tl rs) l) as [l2 e2] eqn:A.
  intros [= <- <-] I. apply in_app_or in I as [I|I].
  - exists 0%nat, s. unfold start_one in S.
    destruct (sc_name s =? 0); [injection S as <- <-; destruct I|].
    destruct (negb (sc_pid s =? 0)); [injection S as <- <-; destruct I|].
    destruct (_ && _) in S; [injection S as <- <-; destruct I|].
    destruct (Z.leb_spec (hd 0 rs) 0); injection S as <- <-; cbn in I; destruct I as [I|[]]; [|discriminate].
    injection I as I. repeat split; auto. destruct rs; auto.
  - destruct (IH _ _ _ A I) as (i & c & N & Q & R). exists (Datatypes.S i), c. repeat split; auto.
    destruct rs; [destruct i; cbn; lia|auto].
Qed.

Lemma wait_all_no_remove ksec ws l l' r b e n : wait_all ksec ws l = (l', r, b, e) -> ~ In (ERemove n) e.
Proof.
  revert ws l' r b e; induction l as [|s l IH]; intros ws l' r b e; cbn; [intros [= _ _ _ <-]; auto|].
  destruct (hd (WNone, 0) ws) as [w now].
  destruct (wait_one ksec now w s) as [[[s1 r1] b1] e1] eqn:S.
  destruct (wait_all ksec (tl ws) l) as [[[l2 r2] b2] e2] eqn:A.
  intros [= _ _ _ <-] I. apply in_app_or in I as [I|I]; [|exact (IH _ _ _ _ _ A I)].
  unfold wait_one in S. destruct (sc_name s =? 0); [injection S as _ _ _ <-; auto|].
  destruct (sc_pid s =? 0); [injection S as _ _ _ <-; auto|].
  destruct w; injection S as _ _ _ <-; cbn [app] in I;
    try (destruct (_ && _) in I); cbn in I; intuition discriminate.
Qed.

Lemma wait_loop_no_remove std begin ksec p l l' r b e n :
  wait_loop std begin ksec p l = Some (l', r, b, e) -> ~ In (ERemove n) e.
Proof.
  revert l l' r b e; induction p as [|[ws now] p IH]; intros l l' r b e; cbn; [discriminate|].
  destruct (wait_all ksec ws l) as [[[l1 run] bad] e1] eqn:W.
  pose proof (wait_all_no_remove _ _ _ _ _ _ _ n W) as B1.
  destruct (negb run); [intros [= _ _ _ <-]; auto|].
  destruct (std - 1 <=? now - begin); [intros [= _ _ _ <-]; auto|].
  destruct (wait_loop std begin ksec p l1) as [[[[l2 run2] bad2] e2]|] eqn:L; [|discriminate].
  intros [= _ _ _ <-] I. apply in_app_or in I as [I|I]; [auto|exact (IH _ _ _ _ _ L I)].
Qed.

Lemma after_out n e st : st <> ROut -> after n e st = ROut -> In (ERemove n) e.
Proof.
  revert st; induction e as [|x e IH]; intros st H; cbn; [congruence|]. intros A.
  destruct x; cbn in A; try (right; apply (IH st H A));
    match type of A with context [?m =? n] => destruct (Z.eqb_spec m n) end;
    try (right; apply (IH st H A)); subst; auto;
    right; revert A; apply IH; discriminate.
Qed.
