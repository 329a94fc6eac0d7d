(* C77: the fence agent reports success only when the host was reset or has left (fence_sanlock/fence_sanlock.in;
   model in FenceAgent.v) *)
From Coq Require Import List ZArith Lia Bool Arith.
From Verif Require Import FenceAgent.
Import ListNotations.
Open Scope Z_scope.

(* ---- specification ---- *)
(* the storage when the agent is started: the victim runs only while it holds its lease *)
Definition good (x : ctx) (w : world) : Prop :=
  x_us x <> x_victim x /\
  (forall g, w_inc w = Some g -> r_owner (w_rec w) = x_victim x /\ r_gen (w_rec w) = g /\ r_ts (w_rec w) <> 0 /\ g = w_max w) /\
  (r_owner (w_rec w) = x_victim x -> r_gen (w_rec w) <= w_max w).

(* an error means that the victim has not been dealt with: it still runs, or the storage or fence_sanlockd failed *)
Definition C77_error_statement : Prop := forall x w h s g,
  good x w -> w_inc w = Some g -> run x (start w) h s -> s_pc s = PEnd 1 ->
  w_inc (s_w s) = Some g \/ In (AA (ARead false)) h \/ In (WA (WPid None)) h \/ w_pid w = None.

(* the agent alone, with commands that succeed when they can *)
Definition may (x : ctx) (s : state) (p : Z) : bool :=
  match w_pid (s_w s) with Some q => q =? p | None => false end && takeable (x_victim x) (s_w s) &&
  negb ((r_owner (w_rec (s_w s)) =? x_us x) && negb (r_ts (w_rec (s_w s)) =? 0)).
Definition next (x : ctx) (s : state) : option state :=
  match s_pc s with
  | PRead1 | PRead2 _ _ _ => astep x s (ARead true)
  | PPid1 _ | PLoopPid _ _ _ => astep x s APid
  | PAcq _ p _ => astep x s (AAcq (if may x s p then OGot 1 else ONot))
  | PRel _ _ => astep x s (ARel ROk)
  | PUsr2 _ _ => astep x s AUsr2
  | PReq _ _ => astep x s (AReq true)
  | PEnd _ => None
  end.
Fixpoint nexts (n : nat) (x : ctx) (s : state) : state :=
  match n with O => s | S n => match next x s with Some s' => nexts n x s' | None => s end end.
Definition ended (s : state) : Prop := exists rc, s_pc s = PEnd rc.
(* once the victim is reset the agent ends *)
Definition C77_ends_statement : Prop := forall x w h s,
  good x w -> run x (start w) h s -> w_inc (s_w s) = None -> w_pid (s_w s) <> None -> exists n, ended (nexts n x s).

(* the agent does not leave the lease of the victim with its own host *)
Definition ours (x : ctx) (w : world) : Prop := r_owner (w_rec w) = x_us x /\ r_ts (w_rec w) <> 0.
Definition C77_left_statement : Prop := forall x w h s,
  good x w -> ~ ours x w -> run x (start w) h s -> s_pc s = PEnd 0 -> (forall g ts, ~ In (WA (WFence (x_us x) g ts)) h) ->
  ~ ours x (s_w s).

(* unfencing reports success only when this host holds its lease *)
Definition C77_on_statement : Prop := forall h s, orun h s -> o_pc s = OEnd 0 -> (forall a, In (OL a) h -> a <> LRelease) ->
  o_list s = LHeld.

(* ---- proofs ---- *)
Lemma good_wstep x w a w' : good x w -> wstep (x_victim x) w a = Some w' -> good x w'.
Proof.
  intros (U & I & M) S. destruct a; cbn in S.
  - destruct (w_inc w); [|discriminate]. injection S as <-. split; auto. split; cbn; auto. discriminate.
  - destruct (w_inc w); [|discriminate]. injection S as <-. split; auto. split; cbn; auto. discriminate.
  - destruct (w_inc w); [discriminate|]. destruct ((w_max w <? g) && negb (ts =? 0)) eqn:E; [|discriminate]. injection S as <-.
    apply andb_prop in E as [_ E]. apply negb_true_iff, Z.eqb_neq in E. split; auto. split; cbn; [|lia].
    intros g' J. injection J as <-. auto.
  - destruct (negb (j =? x_victim x) && takeable (x_victim x) w && negb (ts =? 0)) eqn:E; [|discriminate]. injection S as <-.
    apply andb_prop in E as [E _]. apply andb_prop in E as [E T]. apply negb_true_iff, Z.eqb_neq in E.
    split; auto. split; cbn; [|congruence]. intros g' J. destruct (I g' J) as (A & B & C & D).
    unfold takeable in T. rewrite J, A, Z.eqb_refl in T. apply Z.eqb_neq in C. rewrite C in T. discriminate.
  - destruct ((r_owner (w_rec w) =? x_victim x) || (r_ts (w_rec w) =? 0)) eqn:E; [discriminate|]. injection S as <-.
    apply orb_false_iff in E as [E _]. apply Z.eqb_neq in E. split; auto. split; cbn; auto.
    intros g J. destruct (I g J) as (A & _). congruence.
  - injection S as <-. split; auto.
Qed.
Lemma takeable_gone x w : good x w -> takeable (x_victim x) w = true -> w_inc w = None.
Proof.
  intros (U & I & M) T. destruct (w_inc w) as [g|] eqn:E; auto. destruct (I g eq_refl) as (A & _ & C & _).
  unfold takeable in T. rewrite E, A, Z.eqb_refl in T. apply Z.eqb_neq in C. rewrite C in T. discriminate.
Qed.
Lemma good_taken x w ts : good x w -> takeable (x_victim x) w = true -> good x (taken w (x_us x) (x_gen x) ts).
Proof.
  intros G T. pose proof (takeable_gone x w G T) as N. destruct G as (U & I & M). split; auto. split; cbn; [|congruence].
  rewrite N. discriminate.
Qed.
Lemma good_freed x w : good x w -> r_owner (w_rec w) = x_us x -> good x (freed w).
Proof.
  intros (U & I & M) O. split; auto. split; cbn; auto. intros g J. destruct (I g J) as (A & _). congruence.
Qed.

(* what an agent step can do to the storage *)
Lemma astep_world x s a s' : good x (s_w s) -> astep x s a = Some s' ->
  good x (s_w s') /\ w_inc (s_w s') = w_inc (s_w s) /\ w_max (s_w s') = w_max (s_w s).
Proof.
  intros G S. unfold astep, aend, goto in S. cbv zeta in S.
  destruct (s_pc s), a as [ok| |o|o| |ok]; try discriminate;
    try (destruct ok; try discriminate);
    repeat match type of S with
    | context [match w_pid (s_w s) with _ => _ end] => destruct (w_pid (s_w s)) eqn:?
    | context [match o with _ => _ end] => destruct o
    | context [if ?b then _ else _] => destruct b eqn:?
    end; try discriminate; injection S as <-; cbn [s_w]; auto.
  all: repeat match goal with H : _ && _ = true |- _ => apply andb_prop in H as [? ?] end.
  all: try (split; [apply good_taken; assumption|auto]).
  all: split; [apply good_freed; auto; now apply Z.eqb_eq|auto].
Qed.

Lemma good_run x w h s : good x w -> run x (start w) h s -> good x (s_w s).
Proof.
  intros G R. induction R as [|h s a s' R IH S]; [exact G|]. destruct a as [a|a]; cbn in S.
  - destruct (wstep (x_victim x) (s_w s) a) eqn:E; [|discriminate]. injection S as <-. cbn. eapply good_wstep; eauto.
  - apply (astep_world x s a s' IH S).
Qed.

(* the victim that runs with generation g goes only by a reset or by leaving, and does not come back as g *)
Definition gone (g : Z) (w : world) : Prop := w_inc w <> Some g.
Lemma gone_step x s a s' g : good x (s_w s) -> g <= w_max (s_w s) -> gone g (s_w s) -> step x s a = Some s' ->
  gone g (s_w s') /\ g <= w_max (s_w s').
Proof.
  intros G M N S. destruct a as [a|a]; cbn in S.
  - destruct (wstep (x_victim x) (s_w s) a) eqn:E; [|discriminate]. injection S as <-. cbn. unfold gone in *.
    destruct a; cbn in E.
    + destruct (w_inc (s_w s)); [|discriminate]. injection E as <-. cbn. split; [discriminate|auto].
    + destruct (w_inc (s_w s)); [|discriminate]. injection E as <-. cbn. split; [discriminate|auto].
    + destruct (w_inc (s_w s)); [discriminate|]. destruct ((w_max (s_w s) <? g0) && negb (ts =? 0)) eqn:B; [|discriminate].
      injection E as <-. apply andb_prop in B as [B _]. apply Z.ltb_lt in B. cbn. split; [intros J; injection J as ->; lia|lia].
    + destruct (negb (j =? x_victim x) && takeable (x_victim x) (s_w s) && negb (ts =? 0)); [|discriminate]. injection E as <-. auto.
    + destruct ((r_owner (w_rec (s_w s)) =? x_victim x) || (r_ts (w_rec (s_w s)) =? 0)); [discriminate|]. injection E as <-. auto.
    + injection E as <-. auto.
  - destruct (astep_world x s a s' G S) as (_ & A & B). unfold gone. rewrite A, B. auto.
Qed.
Lemma still_step x s a s' g : good x (s_w s) -> w_inc (s_w s) = Some g -> step x s a = Some s' ->
  w_inc (s_w s') = Some g \/ a = WA WReset \/ a = WA WLeave.
Proof.
  intros G N S. destruct a as [a|a]; cbn in S.
  - destruct (wstep (x_victim x) (s_w s) a) eqn:E; [|discriminate]. injection S as <-. cbn.
    destruct a; cbn in E; rewrite ?N in E; try discriminate; auto.
    + destruct (negb (j =? x_victim x) && takeable (x_victim x) (s_w s) && negb (ts =? 0)); [|discriminate]. injection E as <-. auto.
    + destruct ((r_owner (w_rec (s_w s)) =? x_victim x) || (r_ts (w_rec (s_w s)) =? 0)); [discriminate|]. injection E as <-. auto.
    + injection E as <-. auto.
  - destruct (astep_world x s a s' G S) as (_ & A & _). left. congruence.
Qed.

(* the record the agent remembers *)
Definition mem (p : pc) : option rec :=
  match p with PPid1 r | PLoopPid r _ _ | PAcq r _ _ | PRel r _ | PUsr2 r _ | PReq r _ | PRead2 r _ _ => Some r | _ => None end.
Definition AI (x : ctx) (g : Z) (s : state) : Prop :=
  (forall r, mem (s_pc s) = Some r -> r_owner r = x_victim x /\ (g <= r_gen r \/ gone g (s_w s))) /\
  ((exists r p, s_pc s = PRel r p) \/ s_pc s = PEnd 0 -> gone g (s_w s)).

Lemma ai_step x g s a s' : good x (s_w s) -> g <= w_max (s_w s) -> AI x g s -> step x s a = Some s' -> AI x g s'.
Proof.
  intros G M [A B] S.
  assert (K : gone g (s_w s) -> gone g (s_w s')) by (intros N; apply (gone_step x s a s' g G M N S)).
  destruct a as [a|a]; cbn [step] in S.
  - destruct (wstep (x_victim x) (s_w s) a) eqn:E; [|discriminate]. injection S as <-. cbn [s_pc s_w] in *. split; cbn [s_pc s_w].
    + intros r J. destruct (A r J) as [O [D|D]]; auto.
    + intros J. auto.
  - destruct (astep_world x s a s' G S) as (_ & WI & _).
    assert (K2 : forall w, w_inc w = w_inc (s_w s) -> gone g (s_w s) -> gone g w) by (unfold gone; intros; congruence).
    destruct G as (U & I & MX).
    unfold astep, aend, goto in S. cbv zeta in S.
    destruct (s_pc s) eqn:P, a as [ok| |o|o| |ok]; try discriminate; cbn [mem] in A;
    try (destruct ok; try discriminate);
    repeat match type of S with
    | context [match w_pid (s_w s) with _ => _ end] => destruct (w_pid (s_w s)) eqn:?
    | context [match o with _ => _ end] => destruct o
    | context [if ?b then _ else _] => destruct b eqn:?
    end; try discriminate; injection S as <-; cbn [s_w] in K |- *; (split; cbn [s_pc mem s_w];
      [intros q J; try discriminate J; injection J as <-|intros [(q & p' & J)|J]; try discriminate J]).
    all: try (apply K; apply B; left; eexists; eexists; reflexivity).
    all: try (destruct (A _ eq_refl) as [O1 [D|D]]; split; [exact O1|left; exact D|exact O1|right; apply K; exact D]).
    + (* lease free at the first read *)
      apply Z.eqb_eq in Heqb. intros J2. destruct (I g J2) as (_ & _ & C & _). congruence.
    + apply negb_false_iff, Z.eqb_eq in Heqb0. split; auto.
      destruct (w_inc (s_w s)) as [g'|] eqn:E.
      * destruct (I g' eq_refl) as (_ & Q & _ & Q2). destruct (Z.eq_dec g' g) as [->|N]; [left; lia|right; unfold gone; rewrite E; congruence].
      * right. unfold gone. rewrite E. discriminate.
    + apply K. repeat match goal with H : _ && _ = true |- _ => apply andb_prop in H as [? ?] end.
      unfold gone. rewrite (takeable_gone x (s_w s)); [discriminate|exact (conj U (conj I MX))|assumption].
    + apply andb_prop in Heqb as [E1 E2]. apply Z.eqb_eq in E1. apply Z.ltb_lt in E2. destruct (A _ eq_refl) as [O1 [D|D]]; auto.
      intros J2. destruct (I g J2) as (_ & Q & _). lia.
Qed.

(* Success: the victim as it ran when the agent was started does not run any more, now or later: it was reset, or
   it left. *)
Theorem C77_off x w h s g :
  good x w -> w_inc w = Some g -> run x (start w) h s -> s_pc s = PEnd 0 ->
  w_inc (s_w s) <> Some g /\ (In (WA WReset) h \/ In (WA WLeave) h).
Proof.
  intros G N R.
  assert (Q : good x (s_w s) /\ g <= w_max (s_w s) /\ AI x g s /\
              (w_inc (s_w s) = Some g \/ (gone g (s_w s) /\ (In (WA WReset) h \/ In (WA WLeave) h)))).
  { induction R as [|h s a s' R IH S].
    - split; auto. destruct G as (U & I & M). destruct (I g N) as (A & B & C & D). split; [cbn; lia|].
      split; [|left; exact N]. split; cbn; [discriminate|]. intros [(r & p & J)|J]; discriminate.
    - destruct IH as (G' & M & A & C). split; [|split; [|split]].
      + destruct a as [a|a]; cbn in S.
        * destruct (wstep (x_victim x) (s_w s) a) eqn:E; [|discriminate]. injection S as <-. cbn. eapply good_wstep; eauto.
        * apply (astep_world x s a s' G' S).
      + destruct C as [C|[C _]].
        * destruct a as [a|a]; cbn in S.
          -- destruct (wstep (x_victim x) (s_w s) a) eqn:E; [|discriminate]. injection S as <-. cbn.
             destruct a; cbn in E; rewrite ?C in E; try discriminate; try (injection E as <-; exact M).
             ++ destruct (negb (j =? x_victim x) && takeable (x_victim x) (s_w s) && negb (ts =? 0)); [|discriminate]. injection E as <-. exact M.
             ++ destruct ((r_owner (w_rec (s_w s)) =? x_victim x) || (r_ts (w_rec (s_w s)) =? 0)); [discriminate|]. injection E as <-. exact M.
          -- destruct (astep_world x s a s' G' S) as (_ & _ & ->). exact M.
        * apply (gone_step x s a s' g G' M C S).
      + exact (ai_step x g s a s' G' M A S).
      + destruct C as [C|[C D]].
        * destruct (still_step x s a s' g G' C S) as [E|E]; [left; exact E|]. right. split.
          -- destruct E as [->| ->]; cbn in S; rewrite C in S; injection S as <-; discriminate.
          -- destruct E as [->| ->]; [left|right]; apply in_or_app; right; now left.
        * right. split; [apply (gone_step x s a s' g G' M C S)|]. destruct D as [D|D]; [left|right]; apply in_or_app; auto. }
  intros P. destruct Q as (_ & _ & [_ B] & C). specialize (B (or_intror P)). destruct C as [C|[_ C]]; [contradiction|]. auto.
Qed.

(* ---- the pid file, SIGUSR2 and the request ---- *)
Definition isw (e : aev) : bool := match e with EWrite _ _ _ _ => true | _ => false end.
Definition isq (e : aev) : bool := match e with ERequest _ => true | _ => false end.
Definition base (x : ctx) (r : rec) : aev := EWrite (x_victim x) (r_gen r) (r_lver r) (r_ts r).
Definition reqs (b : bool) (r : rec) (p : Z) : list aev := if b then [EUsr2 p; ERequest (r_lver r + 1)] else [].
Definition TI (x : ctx) (s : state) : Prop :=
  match s_pc s with
  | PRead1 | PPid1 _ => s_tr s = []
  | PEnd rc => s_tr s = [EExit rc] \/ exists b r p, s_tr s = base x r :: reqs b r p ++ [EUnlink; EExit rc]
  | PLoopPid r p n | PAcq r p n => (1 <= n)%nat /\ s_tr s = base x r :: reqs (negb (n =? 1)%nat) r p
  | PRel r p => exists b, s_tr s = base x r :: reqs b r p
  | PUsr2 r p => s_tr s = [base x r]
  | PReq r p => s_tr s = [base x r; EUsr2 p]
  | PRead2 r p n => (1 <= n)%nat /\ s_tr s = base x r :: reqs true r p
  end.
Lemma ti_step x s a s' : TI x s -> step x s a = Some s' -> TI x s'.
Proof.
  intros T S. destruct a as [a|a]; cbn [step] in S.
  - destruct (wstep (x_victim x) (s_w s) a); [|discriminate]. injection S as <-. exact T.
  - unfold astep, aend, goto in S. cbv zeta in S. unfold TI in T.
    destruct (s_pc s) as [|r|r p n|r p n|r p|r p|r p|r p n|rc] eqn:P, a as [ok| |o|o| |ok]; try discriminate.
    + destruct ok.
      * destruct (r_ts _ =? 0); [injection S as <-; left; cbn; rewrite T; reflexivity|].
        destruct (negb _); injection S as <-; unfold TI; cbn; rewrite T; auto.
      * injection S as <-; left; cbn; rewrite T; reflexivity.
    + destruct (w_pid _); injection S as <-; unfold TI; cbn; rewrite T; auto.
    + destruct T as [N T]. destruct (w_pid _); injection S as <-; unfold TI; cbn [s_pc s_tr]; rewrite T; rewrite ?app_nil_r; auto.
      right. eexists _, r, p. reflexivity.
    + destruct T as [N T]. destruct o as [ts| |ts].
      * destruct (_ && negb (ts =? 0)); [|discriminate]. injection S as <-; unfold TI; cbn [s_pc s_tr]. rewrite app_nil_r, T. eauto.
      * injection S as <-; unfold TI; cbn [s_pc s_tr]. rewrite app_nil_r, T. destruct (n =? 1)%nat; cbn; auto.
      * destruct (_ && negb (ts =? 0)); [|discriminate]. injection S as <-; unfold TI; cbn [s_pc s_tr]. rewrite app_nil_r, T.
        destruct (n =? 1)%nat; cbn; auto.
    + destruct T as [b T]. assert (Q : TI x s') by (destruct o; [destruct (_ && _); [|discriminate]| |destruct (_ && _); [|discriminate]];
        injection S as <-; unfold TI; cbn [s_pc s_tr]; rewrite T; right; exists b, r, p; reflexivity). exact Q.
    + injection S as <-; unfold TI; cbn [s_pc s_tr]. rewrite T. reflexivity.
    + injection S as <-; unfold TI; cbn [s_pc s_tr]. rewrite T. split; auto.
    + destruct T as [N T]. assert (E : exists rc, s_pc s' = PEnd rc /\ s_tr s' = s_tr s ++ [EUnlink] ++ [EExit rc] \/
         s_pc s' = PLoopPid r p (Datatypes.S n) /\ s_tr s' = s_tr s).
      { destruct ok; [|injection S as <-; eexists; left; split; reflexivity].
        destruct (_ && _); [injection S as <-; eexists; left; split; reflexivity|].
        destruct (negb _); injection S as <-; [exists 1; left; split; reflexivity|]. exists 0. right. cbn. rewrite app_nil_r. auto. }
      destruct E as [rc [[E1 E2]|[E1 E2]]]; unfold TI; rewrite E1, E2, T.
      * right. exists true, r, p. reflexivity.
      * split; [lia|]. destruct n; [lia|reflexivity].
Qed.
Lemma ti_run x w h s : run x (start w) h s -> TI x s.
Proof. intros R. induction R; [reflexivity|eapply ti_step; eauto]. Qed.

(* The pid file is written at most once, it is there when SIGUSR2 is sent, and it is gone when the agent ends; the
   request goes out at most once, after SIGUSR2, for the version after the one first read. *)
Theorem C77_file x w h s :
  run x (start w) h s ->
  (forall rc, s_pc s = PEnd rc ->
     (count_occ Bool.bool_dec (map isw (s_tr s)) true <= 1)%nat /\
     (In EUnlink (s_tr s) <-> In true (map isw (s_tr s))) /\
     (In true (map isw (s_tr s)) -> exists a, s_tr s = a ++ [EUnlink; EExit rc] /\ ~ In EUnlink a)) /\
  (forall a p b, s_tr s = a ++ EUsr2 p :: b -> exists g v ts, a = [EWrite (x_victim x) g v ts]) /\
  (forall a v b, s_tr s = a ++ ERequest v :: b -> exists g ts p, a = [EWrite (x_victim x) g (v - 1) ts; EUsr2 p]).
Proof.
  intros R. pose proof (ti_run x w h s R) as T.
  assert (K : s_tr s = [] \/ (exists rc, s_tr s = [EExit rc]) \/
              exists r p t u, s_tr s = base x r :: t ++ u /\ (t = [] \/ t = [EUsr2 p] \/ t = reqs true r p) /\
                              (u = [] \/ exists rc, u = [EUnlink; EExit rc])).
  { unfold TI in T. destruct (s_pc s) as [|r|r p n|r p n|r p|r p|r p|r p n|rc].
    - auto.
    - auto.
    - right; right. destruct T as [_ ->]. exists r, p, (reqs (negb (n =? 1)%nat) r p), []. rewrite app_nil_r. destruct (n =? 1)%nat; cbn; auto.
    - right; right. destruct T as [_ ->]. exists r, p, (reqs (negb (n =? 1)%nat) r p), []. rewrite app_nil_r. destruct (n =? 1)%nat; cbn; auto.
    - right; right. destruct T as [b ->]. exists r, p, (reqs b r p), []. rewrite app_nil_r. destruct b; cbn; auto.
    - right; right. rewrite T. exists r, p, [], []. auto.
    - right; right. rewrite T. exists r, p, [EUsr2 p], []. auto.
    - right; right. destruct T as [_ ->]. exists r, p, (reqs true r p), []. auto.
    - destruct T as [->|(b & r & p & ->)]; [eauto|]. right; right. exists r, p, (reqs b r p), [EUnlink; EExit rc].
      split; auto. split; eauto. destruct b; cbn; auto. }
  split; [|split].
  - intros rc P. unfold TI in T. rewrite P in T. destruct T as [->|(b & r & p & ->)].
    + cbn. split; [lia|]. split; [split; intros [H|[]]; discriminate|intros [H|[]]; discriminate].
    + destruct b; cbn; (split; [lia|split; [tauto|intros _]]).
      * exists (base x r :: reqs true r p). cbn. split; auto. intros [H|[H|[H|[]]]]; discriminate.
      * exists [base x r]. split; auto. intros [H|[]]; discriminate.
  - intros a p b E. destruct K as [K|[(rc & K)|(r & q & t & u & K & Q & U)]]; rewrite K in E.
    + destruct a; discriminate.
    + destruct a as [|e [|]]; discriminate.
    + destruct Q as [->|[->| ->]]; destruct U as [->|(rc & ->)]; cbn in E;
        repeat (destruct a as [|? a]; cbn in E; try discriminate; injection E as <- E); try discriminate;
        try (eexists _, _, _; reflexivity).
  - intros a v b E. destruct K as [K|[(rc & K)|(r & q & t & u & K & Q & U)]]; rewrite K in E.
    + destruct a; discriminate.
    + destruct a as [|e [|]]; discriminate.
    + destruct Q as [->|[->| ->]]; destruct U as [->|(rc & ->)]; cbn in E;
        repeat (destruct a as [|? a]; cbn in E; try discriminate; injection E as <- E); try discriminate;
        exists (r_gen r), (r_ts r), q; unfold base; replace (r_lver r + 1 - 1) with (r_lver r) by lia; reflexivity.
Qed.

(* ---- what an error means ---- *)
Definition X0 : ctx := mkX 1 1 2.
Definition W0 : world := mkW (mkR 2 5 7 100) (Some 5) 5 (Some 300).
Lemma good0 : good X0 W0.
Proof. split; [discriminate|]. split; [intros g E; injection E as <-; cbn; repeat split; congruence|cbn; lia]. Qed.
Fixpoint plays (x : ctx) (s : state) (h : list action) : option state :=
  match h with [] => Some s | a :: h => match step x s a with Some s' => plays x s' h | None => None end end.
Lemma plays_run x s0 h1 s h s' : run x s0 h1 s -> plays x s h = Some s' -> run x s0 (h1 ++ h) s'.
Proof.
  revert h1 s. induction h as [|a h IH]; cbn; intros h1 s R E.
  - injection E as <-. now rewrite app_nil_r.
  - destruct (step x s a) eqn:S; [|discriminate]. replace (h1 ++ a :: h) with ((h1 ++ [a]) ++ h) by (now rewrite <- app_assoc).
    eapply IH; [|exact E]. econstructor; eauto.
Qed.
Lemma plays0 x s0 h s' : plays x s0 h = Some s' -> run x s0 h s'.
Proof. intros E. apply (plays_run x s0 [] s0 h s'); [constructor|exact E]. Qed.

(* the victim is reset, a second host that fences it takes its lease first *)
Definition two_fencers : list action :=
  [AA (ARead true); AA APid; AA APid; AA (AAcq ONot); AA AUsr2; AA (AReq true); WA WReset; WA (WFence 3 4 200); WA WFree; AA (ARead true)].
Theorem C77_error_refuted : ~ C77_error_statement.
Proof.
  intros C. destruct (plays X0 (start W0) two_fencers) as [s|] eqn:E; [|vm_compute in E; discriminate].
  pose proof (C X0 W0 two_fencers s 5 good0 eq_refl (plays0 _ _ _ _ E)) as D.
  assert (P : s_pc s = PEnd 1) by (vm_compute in E; injection E as <-; reflexivity).
  assert (Q : w_inc (s_w s) = None) by (vm_compute in E; injection E as <-; reflexivity).
  destruct (D P) as [F|[F|[F|F]]].
  - congruence.
  - repeat (destruct F as [F|F]; [discriminate|]); destruct F.
  - repeat (destruct F as [F|F]; [discriminate|]); destruct F.
  - discriminate.
Qed.

(* Without a second host that fences it, without a storage error, with fence_sanlockd running, and with answers that
   say what the daemon did, the agent does not report an error for a victim that has its lease. *)
Theorem C77_error_conditional x w h s :
  good x w -> r_owner (w_rec w) = x_victim x -> w_pid w <> None -> run x (start w) h s ->
  (forall a, In a h -> match a with WA (WFence _ _ _) | WA (WPid None) | AA (ARead false) | AA (AAcq (OLost _)) => False | _ => True end) ->
  s_pc s <> PEnd 1.
Proof.
  intros G O NP R NA.
  assert (Q : w_pid (s_w s) <> None /\
              match s_pc s with
              | PRel _ _ | PEnd 0 => True
              | PEnd _ => False
              | q => r_owner (w_rec (s_w s)) = x_victim x /\ match mem q with Some r => r_owner r = x_victim x | None => True end
              end).
  { induction R as [|h s a s' R IH S]; [cbn; auto|].
    assert (NA' := fun b I => NA b (in_or_app h [a] b (or_introl I))). specialize (NA a (in_or_app h [a] a (or_intror (or_introl eq_refl)))).
    destruct (IH NA') as [IP IQ]. clear IH NA'. destruct a as [a|a]; cbn [step] in S.
    - destruct (wstep (x_victim x) (s_w s) a) as [w1|] eqn:E; [|discriminate]. injection S as <-. cbn [s_w s_pc].
      assert (Z1 : w_pid w1 <> None /\ (r_owner (w_rec (s_w s)) = x_victim x -> r_owner (w_rec w1) = x_victim x)).
      { destruct a; cbn in E.
        - destruct (w_inc _); [|discriminate]. injection E as <-. auto.
        - destruct (w_inc _); [|discriminate]. injection E as <-. auto.
        - destruct (w_inc _); [discriminate|]. destruct (_ && _); [|discriminate]. injection E as <-. auto.
        - destruct NA.
        - destruct (_ || _); [discriminate|]. injection E as <-. auto.
        - injection E as <-. destruct p; [|destruct NA]. cbn. split; [discriminate|auto]. }
      destruct Z1 as [Z1 Z2]. split; auto. destruct (s_pc s) as [|r|r p n|r p n|r p|r p|r p|r p n|rc]; auto; intuition.
    - unfold astep, aend, goto in S. cbv zeta in S.
      destruct (s_pc s) as [|r|r p n|r p n|r p|r p|r p|r p n|rc], a as [ok| |o|o| |ok]; try discriminate; cbn [mem] in IQ.
      + destruct ok; [|destruct NA]. destruct (r_ts _ =? 0); [injection S as <-; cbn; auto|].
        destruct IQ as [IQ _]. rewrite IQ, Z.eqb_refl in S. injection S as <-. cbn. auto.
      + destruct (w_pid (s_w s)) eqn:E; [|congruence]. injection S as <-. cbn. rewrite E. auto.
      + destruct (w_pid (s_w s)) eqn:E; [|congruence]. injection S as <-. cbn. rewrite E. auto.
      + destruct o as [ts| |ts]; [| |destruct NA].
        * destruct (_ && _); [|discriminate]. injection S as <-. cbn. auto.
        * injection S as <-. cbn. destruct (n =? 1)%nat; auto.
      + destruct o; [destruct (_ && _); [|discriminate]| |destruct (_ && _); [|discriminate]]; injection S as <-; cbn; auto.
      + injection S as <-. cbn. auto.
      + injection S as <-. cbn. auto.
      + destruct ok; [|destruct NA]. destruct (_ && _); [injection S as <-; cbn; auto|].
        destruct IQ as [I1 I2]. rewrite I1, I2, Z.eqb_refl in S. injection S as <-. cbn. auto. }
  intros P. rewrite P in Q. tauto.
Qed.

(* ---- the loop ends ---- *)
(* fence_sanlockd was started again after the agent had looked for it; the victim has been reset *)
Definition restarted : list action :=
  [AA (ARead true); AA APid; AA APid; AA (AAcq ONot); AA AUsr2; AA (AReq true); WA (WPid (Some 301)); WA WReset].
Definition stuck (s : state) : Prop :=
  s_w s = mkW (mkR 2 5 7 100) None 5 (Some 301) /\
  match s_pc s with
  | PLoopPid q p n | PAcq q p n => q = mkR 2 5 7 100 /\ p = 300 /\ (2 <= n)%nat
  | PRead2 q p n => q = mkR 2 5 7 100 /\ p = 300 /\ (1 <= n)%nat
  | _ => False
  end.
Lemma stuck_next s : stuck s -> exists s', next X0 s = Some s' /\ stuck s'.
Proof.
  destruct s as [w q tr]. unfold stuck. cbn [s_w s_pc]. intros [-> Q].
  destruct q as [|r|r p n|r p n|r p|r p|r p|r p n|rc]; try (destruct Q; fail); destruct Q as (-> & -> & Q).
  - eexists. split; [reflexivity|]. cbn. auto.
  - eexists. split; [reflexivity|]. cbn. split; auto. destruct n as [|[|n]]; [lia|lia|]. cbn. repeat split. lia.
  - eexists. split; [reflexivity|]. cbn. repeat split. lia.
Qed.
Lemma stuck_nexts n : forall s, stuck s -> stuck (nexts n X0 s).
Proof.
  induction n as [|n IH]; cbn; auto. intros s Q. destruct (stuck_next s Q) as (s' & -> & Q'). auto.
Qed.
Theorem C77_ends_refuted : ~ C77_ends_statement.
Proof.
  intros C. destruct (plays X0 (start W0) restarted) as [s|] eqn:E; [|vm_compute in E; discriminate].
  assert (Q : stuck s) by (vm_compute in E; injection E as <-; vm_compute; repeat split; auto).
  assert (N : w_pid (s_w s) <> None) by (destruct Q as [-> _]; discriminate).
  assert (I : w_inc (s_w s) = None) by (destruct Q as [-> _]; reflexivity).
  destruct (C X0 W0 restarted s good0 (plays0 _ _ _ _ E) I N) as (n & rc & F).
  destruct (stuck_nexts n s Q) as [_ K]. rewrite F in K. exact K.
Qed.

(* with the fence_sanlockd the agent saw first, at most eight more commands are needed, and the agent reports success *)
Definition pid_of (p : pc) : option Z :=
  match p with PLoopPid _ p _ | PAcq _ p _ | PRel _ p | PUsr2 _ p | PReq _ p | PRead2 _ p _ => Some p | _ => None end.
Definition waiting (p : pc) : Prop := match p with PEnd _ | PRel _ _ => False | _ => True end.
Theorem C77_ends_conditional x w h s :
  good x w -> run x (start w) h s -> w_inc (s_w s) = None -> r_owner (w_rec (s_w s)) = x_victim x -> w_pid (s_w s) <> None ->
  (forall p, pid_of (s_pc s) = Some p -> w_pid (s_w s) = Some p) -> waiting (s_pc s) ->
  s_pc (nexts 8 x s) = PEnd 0.
Proof.
  intros G R N O NP PD NE. pose proof (good_run x w h s G R) as (U & _ & _).
  assert (ME : forall r, mem (s_pc s) = Some r -> r_owner r = x_victim x).
  { clear -R. induction R as [|h s a s' R IH S]; [discriminate|]. destruct a as [a|a]; cbn [step] in S.
    - destruct (wstep (x_victim x) (s_w s) a); [|discriminate]. injection S as <-. exact IH.
    - unfold astep, aend, goto in S. cbv zeta in S.
      destruct (s_pc s) as [|r|r p n|r p n|r p|r p|r p|r p n|rc], a as [ok| |o|o| |ok]; try discriminate; cbn [mem] in IH;
      try (destruct ok; try discriminate);
      repeat match type of S with
      | context [match w_pid (s_w s) with _ => _ end] => destruct (w_pid (s_w s)) eqn:?
      | context [match o with _ => _ end] => destruct o
      | context [if ?b then _ else _] => destruct b eqn:?
      end; try discriminate; injection S as <-; cbn [s_pc mem]; auto; try discriminate.
      intros q E. injection E as <-. apply negb_false_iff, Z.eqb_eq in Heqb0. exact Heqb0. }
  destruct s as [[rc0 inc mx pd] q tr]. cbn [s_w s_pc w_inc w_rec w_pid] in *. subst inc.
  destruct pd as [pd|]; [|congruence]. clear NP R G.
  assert (UB : (x_victim x =? x_us x) = false) by (apply Z.eqb_neq; congruence).
  (* one pass from the acquire *)
  assert (A : forall r n t k, nexts (S (S k)) x (mkS (mkW rc0 None mx (Some pd)) (PAcq r pd n) t) =
              mkS (freed (taken (mkW rc0 None mx (Some pd)) (x_us x) (x_gen x) 1)) (PEnd 0) ((t ++ []) ++ [EUnlink] ++ [EExit 0])).
  { intros r n t k. cbn [nexts next s_pc]. unfold may. cbn [s_w w_pid w_rec]. rewrite Z.eqb_refl.
    replace (takeable (x_victim x) (mkW rc0 None mx (Some pd))) with true by (unfold takeable; cbn; rewrite orb_true_r; reflexivity).
    rewrite O, UB. cbn [andb negb]. unfold astep. cbv zeta. cbn [s_pc s_w w_pid w_rec].
    rewrite Z.eqb_refl. replace (takeable (x_victim x) (mkW rc0 None mx (Some pd))) with true by (unfold takeable; cbn; rewrite orb_true_r; reflexivity).
    rewrite O, UB. cbn [andb negb Z.eqb]. unfold goto. cbn [nexts next s_pc s_w s_tr]. unfold astep. cbv zeta. cbn [s_pc s_w].
    unfold taken at 1 2. cbn [w_rec r_owner r_ts Z.eqb negb andb]. rewrite Z.eqb_refl. cbn [andb]. unfold aend. destruct k; reflexivity. }
  assert (B : forall r n t k, s_pc (nexts (S (S (S k))) x (mkS (mkW rc0 None mx (Some pd)) (PLoopPid r pd n) t)) = PEnd 0).
  { intros r n t k. change (nexts (S (S (S k))) x (mkS (mkW rc0 None mx (Some pd)) (PLoopPid r pd n) t)) with
      (nexts (S (S k)) x (mkS (mkW rc0 None mx (Some pd)) (PAcq r pd n) (t ++ []))). rewrite A. reflexivity. }
  assert (D : forall r n t k, r_owner r = x_victim x -> s_pc (nexts (S (S (S (S k)))) x (mkS (mkW rc0 None mx (Some pd)) (PRead2 r pd n) t)) = PEnd 0).
  { intros r n t k Or. remember (S (S (S k))) as m. cbn [nexts next s_pc astep s_w w_rec]. rewrite O, Or, Z.eqb_refl. cbn [andb negb].
    destruct (r_gen r <? r_gen rc0); [unfold aend; subst m; reflexivity|]. unfold goto. subst m. apply B. }
  destruct q as [|r|r p n|r p n|r p|r p|r p|r p n|rc]; cbn [pid_of mem] in *.
  - cbn [nexts next s_pc astep s_w w_rec]. destruct (r_ts rc0 =? 0) eqn:E; [unfold aend; reflexivity|]. rewrite O, Z.eqb_refl. cbn [negb].
    unfold goto. cbn [nexts next s_pc astep s_w w_rec w_pid]. unfold goto. apply (B rc0 1%nat _ 3%nat).
  - cbn [nexts next s_pc astep s_w w_rec w_pid]. unfold goto. apply (B r 1%nat _ 4%nat).
  - injection (PD p eq_refl) as ->. apply (B r n tr 5%nat).
  - injection (PD p eq_refl) as ->. rewrite (A r n tr 6%nat). reflexivity.
  - destruct NE.
  - injection (PD p eq_refl) as ->. cbn [nexts next s_pc astep s_w]. unfold goto. cbn [nexts next s_pc astep s_w]. unfold goto.
    apply (D r 1%nat _ 2%nat). auto.
  - injection (PD p eq_refl) as ->. cbn [nexts next s_pc astep s_w]. unfold goto. apply (D r 1%nat _ 3%nat). auto.
  - injection (PD p eq_refl) as ->. apply (D r n tr 4%nat). auto.
  - destruct NE.
Qed.

(* ---- the lease afterwards ---- *)
Definition release_fails : list action := [AA (ARead true); WA WReset; AA APid; AA APid; AA (AAcq (OGot 150)); AA (ARel RFail)].
Theorem C77_left_refuted : ~ C77_left_statement.
Proof.
  intros C. destruct (plays X0 (start W0) release_fails) as [s|] eqn:E; [|vm_compute in E; discriminate].
  assert (N : ~ ours X0 W0) by (intros [F _]; discriminate).
  pose proof (C X0 W0 release_fails s good0 N (plays0 _ _ _ _ E)) as D.
  assert (P : s_pc s = PEnd 0) by (vm_compute in E; injection E as <-; reflexivity).
  apply (D P).
  - intros g ts F. repeat (destruct F as [F|F]; [discriminate|]). destruct F.
  - vm_compute in E; injection E as <-. split; [reflexivity|discriminate].
Qed.
(* when the release does not fail and no acquire is lost the lease is not left behind *)
Theorem C77_left_conditional x w h s rc :
  ~ ours x w -> x_us x <> x_victim x -> run x (start w) h s -> s_pc s = PEnd rc ->
  (forall a, In a h -> match a with WA (WFence j _ _) => j <> x_us x | AA (ARel RFail) | AA (AAcq (OLost _)) => False | _ => True end) ->
  ~ ours x (s_w s).
Proof.
  intros N U R P NA.
  assert (Q : (exists r p, s_pc s = PRel r p) \/ ~ ours x (s_w s)).
  { clear P rc. induction R as [|h s a s' R IH S]; [right; exact N|].
    assert (NA' := fun b I => NA b (in_or_app h [a] b (or_introl I))). specialize (NA a (in_or_app h [a] a (or_intror (or_introl eq_refl)))).
    specialize (IH NA'). clear NA'. destruct a as [a|a]; cbn [step] in S.
    - destruct (wstep (x_victim x) (s_w s) a) as [w1|] eqn:E; [|discriminate]. injection S as <-. cbn [s_w s_pc].
      destruct IH as [IH|IH]; [left; exact IH|]. right. intros [A B]. apply IH. unfold ours. destruct a; cbn in E.
      + destruct (w_inc _); [|discriminate]. injection E as <-. auto.
      + destruct (w_inc _); [|discriminate]. injection E as <-. cbn in B. lia.
      + destruct (w_inc _); [discriminate|]. destruct (_ && _); [|discriminate]. injection E as <-. cbn in A. congruence.
      + destruct (_ && _); [|discriminate]. injection E as <-. cbn in A. congruence.
      + destruct (_ || _); [discriminate|]. injection E as <-. cbn in B. lia.
      + injection E as <-. auto.
    - unfold astep, aend, goto in S. cbv zeta in S.
      destruct (s_pc s) as [|r|r p n|r p n|r p|r p|r p|r p n|rc], a as [ok| |o|o| |ok]; try discriminate;
        try (destruct IH as [(r' & p' & J)|IH]; [discriminate J|]).
      + destruct ok; [destruct (r_ts _ =? 0); [|destruct (negb _)]|]; injection S as <-; auto.
      + destruct (w_pid _); injection S as <-; auto.
      + destruct (w_pid _); injection S as <-; auto.
      + destruct o as [ts| |ts]; [| |destruct NA].
        * destruct (_ && negb (ts =? 0)); [|discriminate]. injection S as <-. cbn. left. eauto.
        * injection S as <-. auto.
      + destruct o; [| destruct NA|]; (destruct (_ && _); [|discriminate]; injection S as <-; right; intros [_ B]; cbn in B; lia).
      + injection S as <-. auto.
      + injection S as <-. auto.
      + destruct ok; [destruct (_ && _); [|destruct (negb _)]|]; injection S as <-; auto. }
  destruct Q as [(r & p & Q)|Q]; [congruence|exact Q].
Qed.

(* ---- status ---- *)
(* OFF is reported exactly for a lease that is free; the victim does not run then *)
Theorem C77_status x w :
  good x w -> (action_status (Some (w_rec w)) = 2 <-> r_ts (w_rec w) = 0) /\
              (action_status (Some (w_rec w)) = 2 -> w_inc w = None) /\ (forall r, action_status r = 1 <-> r = None).
Proof.
  intros (U & I & M). unfold action_status. split; [|split].
  - destruct (r_ts (w_rec w) =? 0) eqn:E; [apply Z.eqb_eq in E|apply Z.eqb_neq in E]; split; auto; try discriminate. contradiction.
  - destruct (r_ts (w_rec w) =? 0) eqn:E; [apply Z.eqb_eq in E|discriminate]. intros _.
    destruct (w_inc w) as [g|]; auto. destruct (I g eq_refl) as (_ & _ & C & _). contradiction.
  - intros [r|]; [|tauto]. destruct (r_ts r =? 0); split; discriminate.
Qed.

(* ---- unfencing ---- *)
Theorem C77_on_refuted : ~ C77_on_statement.
Proof.
  intros C. set (h := [OL LStart; OStatus true; OPidof true]).
  assert (R : orun h (mkO LAdd (OEnd 0))).
  { unfold h. change [OL LStart; OStatus true; OPidof true] with ((([] ++ [OL LStart]) ++ [OStatus true]) ++ [OPidof true]).
    econstructor; [econstructor; [econstructor; [constructor|reflexivity]|reflexivity]|reflexivity]. }
  specialize (C h _ R eq_refl). cbn in C. discriminate C.
  intros a [F|[F|[F|[]]]]; try discriminate. injection F as <-. discriminate.
Qed.
(* the command waits for the acquire to be started, and it ends with success only if one was; when the acquire that
   was started has ended without failure the lease is held *)
Theorem C77_on_conditional h s :
  orun h s -> o_pc s = OEnd 0 -> (forall a, In (OL a) h -> a <> LRelease /\ a <> LDone false) ->
  In (OL LStart) h /\ (o_list s = LHeld \/ (o_list s = LAdd /\ ~ In (OL (LDone true)) h)).
Proof.
  intros R P NA.
  assert (Q : (o_list s = LNone /\ o_pc s <> OEnd 0 /\ o_pc s <> OGrep true /\ ~ In (OL (LDone true)) h) \/
              (In (OL LStart) h /\ (o_list s = LHeld \/ (o_list s = LAdd /\ ~ In (OL (LDone true)) h)))).
  { clear P. induction R as [|h s a s' R IH S]; [left; cbn; repeat split; try discriminate; auto|].
    assert (NA' := fun b I => NA b (in_or_app h [a] _ (or_introl I))).
    specialize (IH NA'). clear NA'.
    assert (IN : forall b, In b h -> In b (h ++ [a])) by (intros; apply in_or_app; auto).
    assert (NI : ~ In (OL (LDone true)) h -> a <> OL (LDone true) -> ~ In (OL (LDone true)) (h ++ [a])).
    { intros A B F. apply in_app_or in F as [F|[F|[]]]; congruence. }
    destruct a as [a|ok|al].
    - pose proof (NA a (in_or_app h [OL a] _ (or_intror (or_introl eq_refl)))) as [N1 N2].
      assert (S' : exists l, lstep (o_list s) a = Some l /\ s' = mkO l (o_pc s)).
      { unfold ostep in S. destruct (o_pc s); destruct (lstep (o_list s) a); try discriminate; injection S as <-; eauto. }
      destruct S' as (l & L & ->). cbn [o_list o_pc].
      destruct IH as [(I & J1 & J2 & J3)|(I & [J|(J & K)])]; rewrite ?I, ?J in L.
      + destruct a; try discriminate. injection L as <-. right. split; [apply in_or_app; right; now left|].
        right. split; auto. apply NI; auto. discriminate.
      + destruct a; try discriminate. congruence.
      + destruct a as [|[|]| |]; try discriminate; [|congruence]. injection L as <-. auto.
    - assert (S' : o_list s' = o_list s /\ (o_list s = LNone -> o_pc s' <> OEnd 0 /\ o_pc s' <> OGrep true)).
      { unfold ostep in S. destruct (o_pc s); try discriminate. injection S as <-. cbn. split; auto.
        intros ->. destruct ok; split; discriminate. }
      destruct S' as (L & M). rewrite L. destruct IH as [(I & J1 & J2 & J3)|(I & [J|(J & K)])].
      + left. destruct (M I). repeat split; auto. apply NI; auto. discriminate.
      + auto.
      + right. split; auto. right. split; auto. apply NI; auto. discriminate.
    - assert (S' : o_list s' = o_list s /\ (o_pc s <> OGrep true -> o_pc s' <> OEnd 0 /\ o_pc s' <> OGrep true)).
      { unfold ostep in S. destruct (o_pc s) as [|st|]; try discriminate. injection S as <-. cbn. split; auto.
        intros A. destruct al, st; try congruence; split; discriminate. }
      destruct S' as (L & M). rewrite L. destruct IH as [(I & J1 & J2 & J3)|(I & [J|(J & K)])].
      + left. destruct (M J2). repeat split; auto. apply NI; auto. discriminate.
      + auto.
      + right. split; auto. right. split; auto. apply NI; auto. discriminate. }
  destruct Q as [(_ & A & _)|Q]; [congruence|exact Q].
Qed.

(* a fencing that succeeds through the reset of the victim; one that sees it back *)
Definition fence1 : list action :=
  [AA (ARead true); AA APid; AA APid; AA (AAcq ONot); AA AUsr2; AA (AReq true); AA (ARead true); WA WReset; AA APid; AA (AAcq (OGot 150)); AA (ARel ROk)].
Definition fence2 : list action :=
  [AA (ARead true); AA APid; AA APid; AA (AAcq ONot); AA AUsr2; AA (AReq true); WA WReset; WA (WJoin 6 180); AA (ARead true)].
Example C77_nonvacuous :
  good X0 W0 /\ w_inc W0 = Some 5 /\
  (exists s, run X0 (start W0) fence1 s /\ s_pc s = PEnd 0 /\ w_rec (s_w s) = mkR 1 1 8 0 /\
     s_tr s = [EWrite 2 5 7 100; EUsr2 300; ERequest 8; EUnlink; EExit 0]) /\
  (exists s, run X0 (start W0) fence2 s /\ s_pc s = PEnd 0 /\ w_inc (s_w s) = Some 6).
Proof.
  split; [exact good0|]. split; [reflexivity|]. split.
  - destruct (plays X0 (start W0) fence1) as [s|] eqn:E; [|vm_compute in E; discriminate]. exists s.
    split; [exact (plays0 _ _ _ _ E)|]. vm_compute in E. injection E as <-. auto.
  - destruct (plays X0 (start W0) fence2) as [s|] eqn:E; [|vm_compute in E; discriminate]. exists s.
    split; [exact (plays0 _ _ _ _ E)|]. vm_compute in E. injection E as <-. auto.
Qed.

Print Assumptions C77_off.
Print Assumptions C77_file.
Print Assumptions C77_error_refuted.
Print Assumptions C77_error_conditional.
Print Assumptions C77_ends_refuted.
Print Assumptions C77_ends_conditional.
Print Assumptions C77_left_refuted.
Print Assumptions C77_left_conditional.
Print Assumptions C77_status.
Print Assumptions C77_on_refuted.
Print Assumptions C77_on_conditional.
