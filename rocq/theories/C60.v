(* C60: the program that makes a process give up its leases is run with the configured arguments *)
From Coq Require Import List NArith ZArith Lia Bool Arith ZifyBool ZifyN ZifyNat.
From Verif Require Import Bytes Strings KillArgs.
Import ListNotations.
Open Scope N_scope.

(* ---- specification ---- *)
(* how an argument is written in the string: a backslash before white space and backslashes, one
   space between two arguments *)
Definition white (c : N) : Prop := c = 9 \/ c = 10 \/ c = 11 \/ c = 12 \/ c = 13 \/ c = 32.
Definition visible (c : N) : Prop := 33 <= c <= 126.
Definition ch_ok (c : N) : Prop := white c \/ visible c.
Fixpoint esc (a : bytes) : bytes :=
  match a with
  | [] => []
  | c :: r => if (c =? 92) || (c =? 32) || ((9 <=? c) && (c <=? 13)) then 92 :: c :: esc r else c :: esc r
  end.
Fixpoint quoted (l : list bytes) : bytes :=
  match l with [] => [] | [a] => esc a | a :: r => esc a ++ 32 :: quoted r end.
Definition arg_ok (a : bytes) : Prop := a <> [] /\ Forall ch_ok a.

(* ---- proofs ---- *)
Lemma is_space_white c : is_space c = true <-> white c.
Proof. unfold is_space, white. lia. Qed.

Lemma cstr_zero s t : Forall (fun c => c <> 0) s -> cstr (s ++ 0 :: t) = Some s.
Proof.
  induction 1 as [|c r H F IH]; [reflexivity|]. cbn [app cstr]. destruct (N.eqb_spec c 0); [contradiction|]. rewrite IH. reflexivity.
Qed.

Lemma cstr_props b s : cstr b = Some s -> (length s < length b)%nat /\ Forall (fun c => c <> 0) s.
Proof.
  revert s. induction b as [|c r IH]; intros s H; [discriminate|]. cbn [cstr] in H.
  destruct (N.eqb_spec c 0) as [->|NZ]; [inversion H; cbn; split; [lia|constructor]|].
  destruct (cstr r) as [t|] eqn:E; [|discriminate]. inversion H; subst. destruct (IH t eq_refl) as [L F].
  cbn [length]. split; [lia|]. constructor; auto.
Qed.

Lemma cstr_total b : In 0 b -> exists s, cstr b = Some s.
Proof.
  induction b as [|c r IH]; intros I; [destruct I|]. cbn [cstr]. destruct (N.eqb_spec c 0); [eauto|].
  destruct I as [->|I]; [contradiction|]. destruct (IH I) as [s ->]. eauto.
Qed.

Lemma terminate_len b : length b = KLEN -> length (terminate b) = KLEN.
Proof. intros H. unfold terminate. rewrite app_length, firstn_length, H. reflexivity. Qed.

Lemma scan_safe : forall n s av arg, (length s <= n)%nat -> (length s + length arg < KLEN)%nat -> (length av <= MAX_AV_COUNT)%nat ->
  exists av' arg', scan s av arg = Some (av', arg') /\ (length av' <= MAX_AV_COUNT)%nat /\ (length arg' < KLEN)%nat.
Proof.
  induction n as [|n IH]; intros s av arg L LA LV.
  - destruct s; [|cbn in L; lia]. exists av, arg. cbn in *. auto.
  - destruct s as [|c r]; [exists av, arg; cbn in *; auto|]. cbn [length] in L, LA. cbn [scan].
    destruct (Nat.eqb_spec (length av) MAX_AV_COUNT) as [E|E]; [exists av, arg; repeat split; auto; lia|].
    destruct (c =? BS).
    { destruct r as [|d r']; [exists av, arg; repeat split; auto; lia|]. cbn [length] in L, LA.
      destruct ((d =? BS) || is_space d); [|exists av, arg; repeat split; auto; lia].
      unfold put. replace (Nat.ltb (length arg) KLEN) with true by (symmetry; apply Nat.ltb_lt; lia).
      apply IH; [lia| |exact LV]. rewrite app_length. cbn. lia. }
    destruct (is_graph c).
    { unfold put. replace (Nat.ltb (length arg) KLEN) with true by (symmetry; apply Nat.ltb_lt; lia).
      apply IH; [lia| |exact LV]. rewrite app_length. cbn. lia. }
    destruct (is_space c); [|exists av, arg; repeat split; auto; lia].
    destruct (Nat.eqb (length arg) 0); [apply IH; cbn; try lia|].
    unfold add_av. replace (Nat.ltb (length arg) KLEN) with true by (symmetry; apply Nat.ltb_lt; lia).
    replace (Nat.ltb (length av) (MAX_AV_COUNT + 1)) with true by (symmetry; apply Nat.ltb_lt; lia).
    cbn [andb]. apply IH; [lia|cbn; lia|]. rewrite app_length. cbn. unfold MAX_AV_COUNT in *. lia.
Qed.

Lemma dec_aux_len : forall f n acc, (length (dec_aux f n acc) <= f + length acc)%nat.
Proof.
  induction f as [|f IH]; intros n acc; cbn [dec_aux]; [lia|]. destruct (n / 10 =? 0); [cbn; lia|].
  etransitivity; [apply IH|]. cbn. lia.
Qed.

(* the helper stays in its buffers, whatever was configured: the argument vector has at most eight
   elements and the path is the first *)
Theorem C60_safe : forall path args pid, length path = 128%nat -> length args = 128%nat -> In 0 path ->
  exists l, run_path path args pid = Some l /\ (1 <= length l <= 8)%nat /\ exists p, cstr path = Some p /\ hd [] l = p.
Proof.
  intros path args pid LP LA IZ. destruct (cstr_total path IZ) as [p P]. unfold run_path. rewrite P.
  assert (S : exists av arg, (if nth 0 args 0 =? 0 then Some ([p], [])
             else match cstr (terminate args) with None => None | Some s => scan s [p] [] end) = Some (av, arg)
             /\ (length av <= MAX_AV_COUNT)%nat /\ (length arg < KLEN)%nat /\ exists r, av = p :: r).
  { destruct (nth 0 args 0 =? 0).
    - exists [p], []. repeat split; cbn; unfold MAX_AV_COUNT, KLEN; try lia. eauto.
    - destruct (cstr_total (terminate args)) as [s C]. { unfold terminate. apply in_or_app. right. left. reflexivity. }
      rewrite C. destruct (cstr_props _ _ C) as [L _]. rewrite terminate_len in L by exact LA.
      destruct (scan_safe (length s) s [p] []) as (av & arg & E & A & B); [lia|cbn; lia|cbn; unfold MAX_AV_COUNT; lia|].
      exists av, arg. split; auto. repeat split; auto.
      assert (X : forall n s av arg av' arg' r, (length s <= n)%nat -> av = p :: r -> scan s av arg = Some (av', arg') -> exists r', av' = p :: r').
      { clear. induction n as [|n IH]; intros s av arg av' arg' r L -> H.
        - destruct s; [|cbn in L; lia]. inversion H; subst. eauto.
        - destruct s as [|c s]; [inversion H; subst; eauto|]. cbn [length] in L. cbn [scan] in H.
          destruct (Nat.eqb (length (p :: r)) MAX_AV_COUNT); [inversion H; subst; eauto|].
          destruct (c =? BS).
          { destruct s as [|d s']; [inversion H; subst; eauto|]. cbn [length] in L.
            destruct ((d =? BS) || is_space d); [|inversion H; subst; eauto].
            destruct (put arg d); [|discriminate]. eapply (IH s'); [| |exact H]; [lia|reflexivity]. }
          destruct (is_graph c).
          { destruct (put arg c); [|discriminate]. eapply (IH s); [| |exact H]; [lia|reflexivity]. }
          destruct (is_space c); [|inversion H; subst; eauto].
          destruct (Nat.eqb (length arg) 0); [eapply (IH s); [| |exact H]; [lia|reflexivity]|].
          unfold add_av in H. destruct (Nat.ltb (length arg) KLEN && Nat.ltb (length (p :: r)) (MAX_AV_COUNT + 1)); [|discriminate].
          eapply (IH s); [| |exact H]; [lia|]. reflexivity. }
      eapply (X (length s) s); [| |exact E]; [lia|reflexivity]. }
  destruct S as (av & arg & -> & A & B & r & ->).
  assert (Q : exists r1, (if Nat.ltb (length (p :: r)) MAX_AV_COUNT && negb (Nat.eqb (length arg) 0) then add_av (p :: r) arg else Some (p :: r))
              = Some (p :: r1) /\ (length (p :: r1) <= MAX_AV_COUNT)%nat).
  { destruct (Nat.ltb_spec (length (p :: r)) MAX_AV_COUNT) as [X|X]; [|exists r; auto].
    destruct (Nat.eqb (length arg) 0); [exists r; auto|]. cbn [andb negb]. unfold add_av.
    replace (Nat.ltb (length arg) KLEN) with true by (symmetry; apply Nat.ltb_lt; lia).
    replace (Nat.ltb (length (p :: r)) (MAX_AV_COUNT + 1)) with true by (symmetry; apply Nat.ltb_lt; lia).
    exists (r ++ [arg]). split; [reflexivity|]. cbn [length] in *. rewrite app_length. cbn. lia. }
  destruct Q as (r1 & -> & Q). cbv zeta.
  assert (Q2 : exists r2, (if Nat.ltb (length (p :: r1)) MAX_AV_COUNT && negb (pid =? 0) then add_av (p :: r1) (pid_str pid) else Some (p :: r1))
              = Some (p :: r2) /\ (length (p :: r2) <= MAX_AV_COUNT)%nat).
  { destruct (Nat.ltb_spec (length (p :: r1)) MAX_AV_COUNT) as [X|X]; [|exists r1; auto].
    destruct (pid =? 0); [exists r1; auto|]. cbn [andb negb]. unfold add_av.
    pose proof (dec_aux_len 20 pid []) as D. cbn [length] in D.
    replace (Nat.ltb (length (pid_str pid)) KLEN) with true by (symmetry; apply Nat.ltb_lt; unfold pid_str, print_llu, KLEN; lia).
    replace (Nat.ltb (length (p :: r1)) (MAX_AV_COUNT + 1)) with true by (symmetry; apply Nat.ltb_lt; lia).
    exists (r1 ++ [pid_str pid]). split; [reflexivity|]. cbn [length] in *. rewrite app_length. cbn. lia. }
  destruct Q2 as (r2 & -> & Q2). replace (Nat.leb (length (p :: r2)) MAX_AV_COUNT) with true by (symmetry; apply Nat.leb_le; exact Q2).
  exists (p :: r2). split; auto. split; [cbn [length] in *; unfold MAX_AV_COUNT in *; lia|]. exists p. auto.
Qed.

(* one argument *)
Lemma scan_esc : forall a s av arg, Forall ch_ok a -> (length av < MAX_AV_COUNT)%nat -> (length arg + length a < KLEN)%nat ->
  scan (esc a ++ s) av arg = scan s av (arg ++ a).
Proof.
  induction a as [|c a IH]; intros s av arg F LV L; [rewrite app_nil_r; reflexivity|].
  inversion F as [|? ? H F']; subst. cbn [length] in L. cbn [esc].
  assert (P : put arg c = Some (arg ++ [c])). { unfold put. replace (Nat.ltb (length arg) KLEN) with true by (symmetry; apply Nat.ltb_lt; lia). reflexivity. }
  assert (NE : Nat.eqb (length av) MAX_AV_COUNT = false) by (apply Nat.eqb_neq; lia).
  assert (R : arg ++ c :: a = (arg ++ [c]) ++ a) by (rewrite <- app_assoc; reflexivity).
  assert (LL : (length (arg ++ [c]) + length a < KLEN)%nat) by (rewrite app_length; cbn; lia).
  destruct ((c =? 92) || (c =? 32) || ((9 <=? c) && (c <=? 13))) eqn:E.
  - cbn [app scan]. rewrite NE. unfold BS. cbn [N.eqb Pos.eqb].
    replace ((c =? 92) || is_space c) with true by (unfold is_space; lia). rewrite P, IH by auto. rewrite R. reflexivity.
  - cbn [app scan]. rewrite NE. unfold BS. replace (c =? 92) with false by lia.
    replace (is_graph c) with true. { rewrite P, IH by auto. rewrite R. reflexivity. }
    symmetry. unfold is_graph. unfold ch_ok, white, visible in H. lia.
Qed.

Lemma scan_space s av arg : (length av < MAX_AV_COUNT)%nat -> (0 < length arg < KLEN)%nat -> scan (32 :: s) av arg = scan s (av ++ [arg]) [].
Proof.
  intros LV L. cbn [scan]. replace (Nat.eqb (length av) MAX_AV_COUNT) with false by (symmetry; apply Nat.eqb_neq; lia).
  cbn. unfold add_av. replace (Nat.eqb (length arg) 0) with false by (symmetry; apply Nat.eqb_neq; lia).
  replace (Nat.ltb (length arg) KLEN) with true by (symmetry; apply Nat.ltb_lt; lia).
  replace (Nat.ltb (length av) (MAX_AV_COUNT + 1)) with true by (symmetry; apply Nat.ltb_lt; lia). reflexivity.
Qed.

Lemma esc_len a : (length a <= length (esc a))%nat.
Proof. induction a as [|c a IH]; cbn; [lia|]. destruct (_ || _); cbn; lia. Qed.

Lemma quoted_cons a b l : quoted (a :: b :: l) = esc a ++ 32 :: quoted (b :: l).
Proof. reflexivity. Qed.

Lemma scan_quoted : forall l a av, Forall arg_ok (a :: l) -> (length av + length l < MAX_AV_COUNT)%nat -> (length (quoted (a :: l)) < KLEN)%nat ->
  scan (quoted (a :: l)) av [] = Some (av ++ removelast (a :: l), last (a :: l) []).
Proof.
  induction l as [|b l IH]; intros a av F LV L; inversion F as [|? ? [NE CH] F']; subst.
  - cbn [quoted length] in *. pose proof (esc_len a). rewrite <- (app_nil_r (esc a)), scan_esc by (auto; cbn; lia).
    cbn [scan removelast last app]. rewrite app_nil_r. reflexivity.
  - rewrite quoted_cons in *. rewrite app_length in L. cbn [length] in *. pose proof (esc_len a).
    assert (0 < length a)%nat by (destruct a; [contradiction|cbn; lia]).
    rewrite scan_esc by (auto; cbn; lia). cbn [app]. rewrite scan_space by lia.
    rewrite IH; auto; [|rewrite app_length; cbn; lia|lia].
    change (removelast (a :: b :: l)) with (a :: removelast (b :: l)). change (last (a :: b :: l) []) with (last (b :: l) []).
    rewrite <- app_assoc. reflexivity.
Qed.

Lemma quoted_ok l : Forall arg_ok l -> Forall (fun c => c <> 0) (quoted l).
Proof.
  assert (E : forall a, Forall ch_ok a -> Forall (fun c => c <> 0) (esc a)).
  { induction 1 as [|c a H F IH]; [constructor|]. cbn [esc]. unfold ch_ok, white, visible in H.
    destruct (_ || _); [constructor; [lia|]|]; constructor; auto; lia. }
  induction l as [|a [|b l] IH]; intros F; [constructor| |]; inversion F as [|? ? [_ H] F']; subst; [apply E; auto|].
  rewrite quoted_cons. apply Forall_app. split; [apply E; auto|]. constructor; [lia|]. apply IH; auto.
Qed.

Lemma send_terminate s : (length s <= 126)%nat -> terminate (send_buf s) = s ++ 0 :: repeat 0 (127 - length s).
Proof.
  intros L. unfold send_buf, terminate, KLEN. change (128 - 2)%nat with 126%nat. change (128 - 1)%nat with 127%nat. rewrite (firstn_all2 s) by exact L.
  rewrite firstn_app, (firstn_all2 s) by lia. rewrite <- app_assoc. f_equal.
  replace (128 - length s)%nat with (S (127 - length s)) by lia.
  assert (R : forall n, firstn n (repeat 0 (S n)) ++ [0] = repeat 0 (S n)).
  { induction n as [|n IH]; [reflexivity|]. change (repeat 0 (S (S n))) with (0 :: repeat 0 (S n)). cbn [firstn app]. rewrite IH. reflexivity. }
  rewrite R. reflexivity.
Qed.

Lemma terminate_twice b : length b = KLEN -> terminate (terminate b) = terminate b.
Proof.
  intros H. assert (E : forall a, length a = (KLEN - 1)%nat -> terminate (a ++ [0]) = a ++ [0]).
  { intros a L. unfold terminate. rewrite firstn_app, L, Nat.sub_diag, firstn_all2 by lia. cbn [firstn]. rewrite app_nil_r. reflexivity. }
  unfold terminate at 2 3. apply E. rewrite firstn_length, H. reflexivity.
Qed.

(* up to seven arguments reach the program as they were given, then the process id if there is room *)
Lemma run_args path l pid :
  Forall (fun c => c <> 0) path -> (length path <= 126)%nat -> Forall arg_ok l -> (length l <= 7)%nat -> (length (quoted l) <= 126)%nat ->
  run_path (terminate (send_buf path)) (terminate (send_buf (quoted l))) pid =
  Some (path :: l ++ (if Nat.ltb (length l) 7 && negb (pid =? 0) then [pid_str pid] else [])).
Proof.
  intros FP LP FL LL LQ. unfold run_path. rewrite send_terminate, cstr_zero by auto.
  assert (T : terminate (terminate (send_buf (quoted l))) = terminate (send_buf (quoted l))).
  { apply terminate_twice. unfold send_buf. rewrite app_length, repeat_length, firstn_length. unfold KLEN. lia. }
  rewrite T. rewrite send_terminate by exact LQ.
  assert (PL : (length (pid_str pid) < KLEN)%nat).
  { pose proof (dec_aux_len 20 pid []) as D. unfold pid_str, print_llu, KLEN. cbn [length] in D. lia. }
  destruct l as [|a l].
  - cbn [quoted app nth N.eqb length Nat.ltb Nat.leb andb negb Nat.eqb MAX_AV_COUNT].
    destruct (pid =? 0); [reflexivity|]. cbn [negb]. unfold add_av.
    replace (Nat.ltb (length (pid_str pid)) KLEN) with true by (symmetry; apply Nat.ltb_lt; exact PL). reflexivity.
  - pose proof (quoted_ok _ FL) as QN.
    assert (Q0 : quoted (a :: l) <> []).
    { intros E. inversion FL as [|? ? [NE _] _]; subst. pose proof (esc_len a). apply NE.
      destruct a; [reflexivity|]. exfalso. destruct l; [cbn [quoted] in E|rewrite quoted_cons in E; apply app_eq_nil in E; destruct E as [E _]];
      rewrite E in H; cbn in H; lia. }
    destruct (quoted (a :: l)) as [|c r] eqn:Q; [contradiction|].
    cbn [app nth]. inversion QN as [|? ? C0 _]; subst. destruct (N.eqb_spec c 0); [contradiction|].
    change (c :: r ++ 0 :: repeat 0 (127 - length (c :: r))) with ((c :: r) ++ 0 :: repeat 0 (127 - length (c :: r))).
    rewrite cstr_zero by exact QN. rewrite <- Q. rewrite scan_quoted; [|exact FL|cbn in *; unfold MAX_AV_COUNT; lia|rewrite Q; unfold KLEN; lia].
    assert (LS : length (removelast (a :: l)) = length l).
    { assert (E := @app_removelast_last _ (a :: l) [] ltac:(discriminate)). apply (f_equal (@length _)) in E. rewrite app_length in E. cbn [length] in E. lia. }
    assert (LA : arg_ok (last (a :: l) []) /\ (length (last (a :: l) []) < KLEN)%nat).
    { assert (In (last (a :: l) []) (a :: l)). { assert (E := @app_removelast_last _ (a :: l) [] ltac:(discriminate)). rewrite E at 2. apply in_or_app. right. left. reflexivity. }
      split; [rewrite Forall_forall in FL; auto|].
      assert (B : forall m x, In x m -> (length x <= length (quoted m))%nat).
      { induction m as [|y [|z m] IH]; intros x I; [destruct I| |].
        - destruct I as [->|[]]. cbn [quoted]. apply esc_len.
        - rewrite quoted_cons, app_length. cbn [length]. destruct I as [->|I]; [pose proof (esc_len x); lia|]. specialize (IH _ I). lia. }
      specialize (B _ _ H). rewrite Q in B. unfold KLEN. lia. }
    destruct LA as [[LN _] LK].
    assert (LZ : Nat.eqb (length (last (a :: l) [])) 0 = false). { apply Nat.eqb_neq. destruct (last (a :: l) []); [contradiction|cbn; lia]. }
    cbn [app]. rewrite LZ. cbn [length] in LL.
    replace (Nat.ltb (length (path :: removelast (a :: l))) MAX_AV_COUNT) with true by (symmetry; apply Nat.ltb_lt; change (length (path :: removelast (a :: l))) with (S (length (removelast (a :: l)))); rewrite LS; unfold MAX_AV_COUNT; lia).
    cbn [andb negb]. unfold add_av at 1.
    replace (Nat.ltb (length (last (a :: l) [])) KLEN) with true by (symmetry; apply Nat.ltb_lt; exact LK).
    replace (Nat.ltb (length (path :: removelast (a :: l))) (MAX_AV_COUNT + 1)) with true by (symmetry; apply Nat.ltb_lt; change (length (path :: removelast (a :: l))) with (S (length (removelast (a :: l)))); rewrite LS; unfold MAX_AV_COUNT; lia).
    cbn [andb]. change ((path :: removelast (a :: l)) ++ [last (a :: l) []]) with (path :: (removelast (a :: l) ++ [last (a :: l) []])).
    rewrite <- (@app_removelast_last _ (a :: l) []) by discriminate. cbv zeta.
    change (length (path :: a :: l)) with (S (S (length l))). change (length (a :: l)) with (S (length l)).
    replace (Nat.ltb (S (S (length l))) MAX_AV_COUNT) with (Nat.ltb (S (length l)) 7) by reflexivity.
    destruct (Nat.ltb_spec (S (length l)) 7) as [B|B]; cbn [andb].
    + destruct (pid =? 0); cbn [negb].
      * rewrite app_nil_r. change (length (path :: a :: l)) with (S (S (length l))).
        replace (Nat.leb (S (S (length l))) MAX_AV_COUNT) with true by (symmetry; apply Nat.leb_le; unfold MAX_AV_COUNT; lia). reflexivity.
      * unfold add_av. replace (Nat.ltb (length (pid_str pid)) KLEN) with true by (symmetry; apply Nat.ltb_lt; exact PL).
        change (length (path :: a :: l)) with (S (S (length l))).
        replace (Nat.ltb (S (S (length l))) (MAX_AV_COUNT + 1)) with true by (symmetry; apply Nat.ltb_lt; unfold MAX_AV_COUNT; lia).
        cbn [andb]. rewrite app_length. cbn [length].
        replace (Nat.leb (S (S (length l)) + 1) MAX_AV_COUNT) with true by (symmetry; apply Nat.leb_le; unfold MAX_AV_COUNT; lia). reflexivity.
    + rewrite app_nil_r. change (length (path :: a :: l)) with (S (S (length l))).
      replace (Nat.leb (S (S (length l))) MAX_AV_COUNT) with true by (symmetry; apply Nat.leb_le; unfold MAX_AV_COUNT; lia). reflexivity.
Qed.

(* what was configured is what is run *)
Theorem C60_args : forall path l (with_pid : bool) pid,
  Forall (fun c => c <> 0) path -> (length path <= 126)%nat ->
  Forall arg_ok l -> (length (quoted l) <= 126)%nat -> (length l + (if with_pid then 1 else 0) <= 7)%nat -> pid <> 0 ->
  kill_argv path (quoted l) with_pid pid = Some (path :: l ++ (if with_pid then [print_llu pid] else [])).
Proof.
  intros path l w pid FP LP FL LQ LL P0. unfold kill_argv. rewrite run_args; auto; [|destruct w; lia].
  destruct w.
  - replace (Nat.ltb (length l) 7) with true by (symmetry; apply Nat.ltb_lt; lia). destruct (N.eqb_spec pid 0); [contradiction|]. reflexivity.
  - rewrite andb_false_r. reflexivity.
Qed.

(* with seven arguments the process id is left out without notice *)
Theorem C60_seven_args_no_pid : forall path l pid,
  Forall (fun c => c <> 0) path -> (length path <= 126)%nat -> Forall arg_ok l -> (length (quoted l) <= 126)%nat -> length l = 7%nat ->
  kill_argv path (quoted l) true pid = Some (path :: l).
Proof.
  intros path l pid H H0 H1 H2 H3. unfold kill_argv. rewrite run_args; auto; [|lia]. rewrite H3. cbn [Nat.ltb Nat.leb andb]. rewrite app_nil_r. reflexivity.
Qed.

(* "/sbin/k" with the arguments "a b" and "c\d" *)
Example C60_nonvacuous :
  exists path l, Forall (fun c => c <> 0) path /\ Forall arg_ok l /\ length l = 2%nat /\
   quoted l = [97; 92; 32; 98; 32; 99; 92; 92; 100] /\
   kill_argv path (quoted l) true 4711 = Some [path; [97; 32; 98]; [99; 92; 100]; [52; 55; 49; 49]].
Proof.
  exists [47; 115; 98; 105; 110; 47; 107], [[97; 32; 98]; [99; 92; 100]].
  split; [repeat constructor; discriminate|]. split; [repeat (apply Forall_cons || apply Forall_nil || split); try discriminate; unfold ch_ok, white, visible; lia|].
  split; [reflexivity|]. split; vm_compute; reflexivity.
Qed.

Print Assumptions C60_safe.
Print Assumptions C60_args.
Print Assumptions C60_seven_args_no_pid.
