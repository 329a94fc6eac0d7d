(* C45: I/O buffers are freed or reused only after the I/O is over, and freed once. *)
From Coq Require Import List Arith Lia Bool.
From Verif Require Import Aio.
Import ListNotations.

(* ---------------- specification ---------------- *)
(* no violation was recorded, nothing was freed twice, and no buffer the kernel still
   uses has been freed *)
Definition C45_ok (n : nat) (s : ast) : Prop :=
  bad s = None /\ NoDup (freed s) /\ forall b, flying n s b = true -> ~ In b (freed s).
(* the task does any sequence of operations and is closed *)
Definition C45_statement : Prop := forall n os s g,
  asteps n ainit os = Some s -> C45_ok n s /\ C45_ok n (op_close n s g).

(* ---------------- basic invariant ---------------- *)
Definition fly (n : nat) (s : ast) (b : nat) : Prop := exists i, i < n /\ a_fly (slots s i) = Some b.
Lemma flying_fly : forall n s b, flying n s b = true <-> fly n s b.
Proof.
  intros n s b. unfold flying, fly. rewrite existsb_exists. split.
  - intros (i & I & O). apply in_seq in I. exists i. split; [lia|]. unfold opt_is in O. destruct (a_fly (slots s i)); [|discriminate].
    apply Nat.eqb_eq in O. congruence.
  - intros (i & I & E). exists i. split; [apply in_seq; lia|]. rewrite E. cbn. apply Nat.eqb_refl.
Qed.
Lemma flying_false : forall n s b, flying n s b = false <-> ~ fly n s b.
Proof. intros n s b. rewrite <- flying_fly. destruct (flying n s b); split; congruence. Qed.
Lemma is_freed_In : forall s b, is_freed s b = true <-> In b (freed s).
Proof.
  intros s b. unfold is_freed. rewrite existsb_exists. split.
  - intros (x & I & E). apply Nat.eqb_eq in E. subst. exact I.
  - intros I. exists b. split; [exact I|apply Nat.eqb_refl].
Qed.
Lemma is_freed_false : forall s b, is_freed s b = false <-> ~ In b (freed s).
Proof. intros s b. rewrite <- is_freed_In. destruct (is_freed s b); split; congruence. Qed.

Record BI (n : nat) (s : ast) : Prop := mkBI {
  bi_bad : bad s = None;
  bi_nodup : NoDup (freed s);
  bi_fly : forall i b, i < n -> a_fly (slots s i) = Some b ->
    a_used (slots s i) = true /\ a_buf (slots s i) = Some b /\ ~ In b (freed s) /\ b < next s;
  bi_uniq : forall i j b, i < n -> j < n -> a_fly (slots s i) = Some b -> a_fly (slots s j) = Some b -> i = j;
  bi_bound : forall b, In b (freed s) -> b < next s }.
Lemma BI_ok : forall n s, BI n s -> C45_ok n s.
Proof.
  intros n s I. split; [apply (bi_bad _ _ I)|]. split; [apply (bi_nodup _ _ I)|]. intros b F.
  apply flying_fly in F. destruct F as (i & L & E). apply (bi_fly _ _ I i b L E).
Qed.

(* what an operation may change besides *)
Definition same (s s' : ast) : Prop := next s' = next s /\ tio s' = tio s /\ prev s' = prev s /\ lvb s' = lvb s.
Definition frees_flown (n : nat) (s s' : ast) : Prop :=
  (forall b, In b (freed s') -> In b (freed s) \/ fly n s b) /\ (forall b, In b (freed s) -> In b (freed s')).

(* freeing a buffer that is neither freed nor in flight *)
Lemma free_BI : forall n s b, BI n s -> b < next s -> ~ In b (freed s) -> ~ fly n s b ->
  BI n (free_buf n s b) /\ freed (free_buf n s b) = b :: freed s /\ slots (free_buf n s b) = slots s /\ same s (free_buf n s b) /\ tsl (free_buf n s b) = tsl s.
Proof.
  intros n s b I L F P. unfold free_buf. rewrite (proj2 (is_freed_false s b) F), (proj2 (flying_false n s b) P). cbn.
  split; [|unfold same; auto 8]. destruct I as [I1 I2 I3 I4 I5]. constructor; cbn; auto.
  - constructor; assumption.
  - intros i x Li E. destruct (I3 i x Li E) as (A & B & C & D). do 2 (split; [assumption|]). split; [|assumption].
    intros [<-|X]; [|auto]. apply P. exists i. auto.
  - intros x [<-|X]; auto.
Qed.
(* collecting the event of a slot *)
Lemma collect_BI : forall n s j, BI n s -> can_event n s j = true ->
  BI n (collect n s j) /\ same s (collect n s j) /\ tsl (collect n s j) = tsl s /\ frees_flown n s (collect n s j) /\
  (forall i, i <> j -> slots (collect n s j) i = slots s i) /\ slots (collect n s j) j = mkA false None None /\
  (forall x, a_fly (slots s j) <> Some x -> In x (freed (collect n s j)) -> In x (freed s)).
Proof.
  intros n s j I C. unfold can_event in C. apply andb_true_iff in C. destruct C as (L & C). apply Nat.ltb_lt in L.
  destruct (a_fly (slots s j)) as [b|] eqn:E; [|discriminate C]. destruct (bi_fly _ _ I j b L E) as (U & B & F & N).
  unfold collect. rewrite B. set (s1 := set_slot s j (mkA false None None)).
  assert (I1 : BI n s1).
  { destruct I as [I1 I2 I3 I4 I5]. unfold s1. constructor; cbn; auto.
    - intros i x Li Ei. destruct (Nat.eqb i j); [discriminate Ei|]. auto.
    - intros i k x Li Lk Ei Ek. destruct (Nat.eqb i j); [discriminate Ei|]. destruct (Nat.eqb k j); [discriminate Ek|]. eapply I4; eauto. }
  assert (P1 : ~ fly n s1 b).
  { intros (i & Li & Ei). cbn in Ei. destruct (Nat.eqb i j) eqn:EJ; [discriminate Ei|]. apply Nat.eqb_neq in EJ. apply EJ.
    eapply (bi_uniq _ _ I); eauto. }
  destruct (free_BI n s1 b I1 N F P1) as (I2 & Fr & Sl & Sm & Ts). split; [exact I2|]. split; [exact Sm|]. split; [exact Ts|].
  split; [|split; [|split]].
  - split; rewrite Fr; cbn; [|auto]. intros x [<-|X]; [right; exists j; auto|auto].
  - intros i Ni. rewrite Sl. cbn. assert (Nat.eqb i j = false) as -> by (apply Nat.eqb_neq; exact Ni). reflexivity.
  - rewrite Sl. cbn. rewrite Nat.eqb_refl. reflexivity.
  - intros x Nx X. rewrite Fr in X. destruct X as [<-|X]; [congruence|exact X].
Qed.

(* [b] is a buffer nobody but the caller knows: the state around an I/O on it *)
Definition quiet (n : nat) (s : ast) (b : nat) : Prop := b < next s /\ ~ In b (freed s) /\ ~ fly n s b.
(* buffers that are not in flight stay out of flight, other than b *)
Definition keeps (n : nat) (s s' : ast) (b : nat) : Prop := forall x, x <> b -> ~ fly n s x -> ~ fly n s' x.

Lemma collect_keeps : forall n s j b, BI n s -> can_event n s j = true -> keeps n s (collect n s j) b /\ (forall x, fly n (collect n s j) x -> fly n s x).
Proof.
  intros n s j b I C. destruct (collect_BI n s j I C) as (_ & _ & _ & _ & S1 & S2 & _).
  assert (G : forall x, fly n (collect n s j) x -> fly n s x).
  { intros x (i & Li & Ei). destruct (Nat.eq_dec i j) as [->|N]; [rewrite S2 in Ei; discriminate Ei|]. rewrite S1 in Ei by exact N. exists i. auto. }
  split; [|exact G]. intros x _ H F. apply H. apply G. exact F.
Qed.

Lemma frees_trans : forall n s s1 s2, frees_flown n s s1 -> frees_flown n s1 s2 -> (forall x, fly n s1 x -> fly n s x) -> frees_flown n s s2.
Proof.
  intros n s s1 s2 (A1 & A2) (B1 & B2) M. split; [|auto]. intros x X. destruct (B1 x X) as [Y|Y]; [apply A1; exact Y|right; apply M; exact Y].
Qed.
Lemma same_trans : forall a b c, same a b -> same b c -> same a c.
Proof. intros a b c (A1 & A2 & A3 & A4) (B1 & B2 & B3 & B4). unfold same. rewrite B1, B2, B3, B4. auto. Qed.
Lemma same_refl : forall s, same s s.
Proof. intros s. unfold same. auto. Qed.

Lemma find_slot_ok : forall n s g o s1, BI n s -> find_slot n s g = (o, s1) ->
  BI n s1 /\ same s s1 /\ frees_flown n s s1 /\ (forall x, fly n s1 x -> fly n s x) /\
  (forall i, o = Some i -> i < n /\ a_used (slots s1 i) = false) /\ (forall x, ~ fly n s x -> In x (freed s1) -> In x (freed s)).
Proof.
  intros n s g o s1 I F. unfold find_slot in F.
  assert (FS : forall s0 i, free_slot n s0 = Some i -> i < n /\ a_used (slots s0 i) = false).
  { intros s0 i E. unfold free_slot in E. apply find_some in E. destruct E as (E1 & E2). apply in_seq in E1. apply negb_true_iff in E2. split; [lia|exact E2]. }
  assert (R : forall o', (o', s) = (o, s1) -> (forall i, o' = Some i -> i < n /\ a_used (slots s i) = false) ->
    BI n s1 /\ same s s1 /\ frees_flown n s s1 /\ (forall x, fly n s1 x -> fly n s x) /\
    (forall i, o = Some i -> i < n /\ a_used (slots s1 i) = false) /\ (forall x, ~ fly n s x -> In x (freed s1) -> In x (freed s))).
  { intros o' E H. injection E as <- <-. split; [exact I|]. split; [apply same_refl|]. split; [split; auto|]. split; [auto|]. split; [exact H|auto]. }
  destruct (free_slot n s) as [i|] eqn:E. { apply (R (Some i) F). intros k K. injection K as <-. apply FS. exact E. }
  destruct g as [| |j ok]; try (apply (R None F); discriminate).
  destruct (can_event n s j) eqn:C; [|apply (R None F); discriminate].
  destruct (collect_BI n s j I C) as (I1 & Sm & Ts & Fr & S1 & S2 & Fo). destruct (collect_keeps n s j 0 I C) as (_ & G).
  injection F as <- <-. split; [exact I1|]. split; [exact Sm|]. split; [exact Fr|]. split; [exact G|]. split; [intros i K; apply FS; exact K|].
  intros x Nx X. apply Fo; [|exact X]. intros K. apply Nx. unfold can_event in C. apply andb_true_iff in C. destruct C as (L & _). apply Nat.ltb_lt in L. exists j. auto.
Qed.

(* ---------------- waiting for an I/O ---------------- *)
Definition no_err (g : list gev) : bool := forallb (fun x => match x with GErr => false | _ => true end) g.
(* the I/O of slot i on buffer b is in flight *)
Definition mine (n : nat) (s : ast) (i b : nat) : Prop := i < n /\ a_fly (slots s i) = Some b.

Lemma finish_slot : forall n s i b, BI n s -> mine n s i b ->
  let s' := set_slot s i (mkA false (a_buf (slots s i)) None) in
  BI n s' /\ same s s' /\ freed s' = freed s /\ ~ fly n s' b /\ (forall x, fly n s' x -> fly n s x).
Proof.
  intros n s i b I (L & E) s'. destruct I as [I1 I2 I3 I4 I5].
  assert (G : forall x, fly n s' x -> fly n s x /\ x <> b).
  { intros x (k & Lk & Ek). cbn in Ek. destruct (Nat.eqb k i) eqn:EK; [discriminate Ek|]. apply Nat.eqb_neq in EK.
    split; [exists k; auto|]. intros ->. apply EK. eapply I4; eauto. }
  split.
  - constructor; cbn; auto.
    + intros k x Lk Ek. destruct (Nat.eqb k i); [discriminate Ek|]. auto.
    + intros k m x Lk Lm Ek Em. destruct (Nat.eqb k i); [discriminate Ek|]. destruct (Nat.eqb m i); [discriminate Em|]. eapply I4; eauto.
  - split; [unfold same; cbn; auto|]. split; [reflexivity|]. split; [intros F; apply (proj2 (G b F)); reflexivity|]. intros x F. apply G. exact F.
Qed.

Lemma wait_ok : forall g n s i b rd cok r s', BI n s -> mine n s i b -> no_err g = true ->
  wait n s i rd cok g = (r, s') ->
  BI n s' /\ same s s' /\ frees_flown n s s' /\ ~ In b (freed s') /\ (forall x, fly n s' x -> fly n s x) /\
  (is_timeout r = false -> ~ fly n s' b) /\ (forall x, ~ fly n s x -> In x (freed s') -> In x (freed s)).
Proof.
  assert (K : forall n s i b rd cok r s', BI n s -> mine n s i b -> cancel s i rd cok = (r, s') ->
    BI n s' /\ same s s' /\ frees_flown n s s' /\ ~ In b (freed s') /\ (forall x, fly n s' x -> fly n s x) /\
    (is_timeout r = false -> ~ fly n s' b) /\ (forall x, ~ fly n s x -> In x (freed s') -> In x (freed s))).
  { intros n s i b rd cok r s' I M C. unfold cancel in C. assert (M0 := M). destruct M as (L & E).
    assert (NF : ~ In b (freed s)) by (apply (bi_fly _ _ I i b L E)).
    destruct cok.
    - injection C as <- <-. destruct (finish_slot n s i b I M0) as (A & B & D & F & G). split; [exact A|]. split; [exact B|].
      split; [split; rewrite D; auto|]. split; [rewrite D; exact NF|]. split; [exact G|]. split; [auto|].
      intros x _. rewrite D. auto.
    - injection C as <- <-. 
      assert (H : BI n (if rd then set_tsl s (Some i) else s)) by (destruct rd; [destruct I; constructor; assumption|exact I]).
      split; [exact H|]. destruct rd; (split; [unfold same; cbn; auto|]; split; [split; auto|]; split; [exact NF|]; split; [auto|]; split; [discriminate|auto]). }
  induction g as [|e g IH]; intros n s i b rd cok r s' I M NE W.
  - eapply K; eauto.
  - cbn [no_err forallb] in NE. apply andb_true_iff in NE. destruct NE as (N1 & N2).
    destruct e as [| |j ok]; cbn [wait] in W; [discriminate N1| eapply K; eauto |].
    destruct (can_event n s j) eqn:C; [|eapply IH; eauto].
    destruct (Nat.eqb j i) eqn:EJ.
    + injection W as <- <-. destruct (finish_slot n s i b I M) as (A & B & D & F & G).
      assert (NF : ~ In b (freed s)) by (destruct M as (L & E); apply (bi_fly _ _ I i b L E)).
      split; [exact A|]. split; [exact B|]. split; [split; rewrite D; auto|]. split; [rewrite D; exact NF|]. split; [exact G|]. split; [auto|].
      intros x _. rewrite D. auto.
    + apply Nat.eqb_neq in EJ. destruct (collect_BI n s j I C) as (I1 & Sm & Ts & Fr & S1 & S2 & Fo).
      destruct (collect_keeps n s j b I C) as (_ & G).
      assert (M1 : mine n (collect n s j) i b). { destruct M as (L & E). split; [exact L|]. rewrite S1 by congruence. exact E. }
      destruct (IH n _ i b rd cok r s' I1 M1 N2 W) as (A & B & D & F & H & T & X).
      split; [exact A|]. split; [eapply same_trans; eauto|]. split; [eapply frees_trans; eauto|]. split; [exact F|].
      split; [auto|]. split; [exact T|]. intros x Nx Y. apply Fo; [|apply X; [|exact Y]].
      * intros K1. apply Nx. unfold can_event in C. apply andb_true_iff in C. destruct C as (L & _). apply Nat.ltb_lt in L. exists j. auto.
      * intros K1. apply Nx. apply G. exact K1.
Qed.

Lemma do_aio_ok : forall n s rd b x r s', BI n s -> quiet n s b -> no_err (io_wait x) = true ->
  do_aio n s rd b x = (r, s') ->
  BI n s' /\ same s s' /\ ~ In b (freed s') /\ (is_timeout r = false -> ~ fly n s' b) /\
  keeps n s s' b /\ (forall y, y <> b -> ~ fly n s y -> In y (freed s') -> In y (freed s)).
Proof.
  intros n s rd b x r s' I (Q1 & Q2 & Q3) NE D. unfold do_aio in D.
  destruct (find_slot n s (io_find x)) as [o s1] eqn:F. destruct (find_slot_ok n s (io_find x) o s1 I F) as (I1 & Sm & Fr & G & O & Fo).
  assert (Q2' : ~ In b (freed s1)) by (intros Y; apply Q2; apply Fo; assumption).
  assert (Q3' : ~ fly n s1 b) by (intros Y; apply Q3; apply G; exact Y).
  assert (EASY : (RvErr, s1) = (r, s') -> BI n s' /\ same s s' /\ ~ In b (freed s') /\ (is_timeout r = false -> ~ fly n s' b) /\
    keeps n s s' b /\ (forall y, y <> b -> ~ fly n s y -> In y (freed s') -> In y (freed s))).
  { intros E. injection E as <- <-. split; [exact I1|]. split; [exact Sm|]. split; [exact Q2'|]. split; [auto|].
    split; [intros y _ Ny Fy; apply Ny; apply G; exact Fy|]. intros y _ Ny Y. apply Fo; assumption. }
  destruct o as [i|]; [|exact (EASY D)]. destruct (negb (io_submit x)); [exact (EASY D)|].
  destruct (O i eq_refl) as (Li & Ui).
  rewrite (proj2 (is_freed_false s1 b) Q2'), (proj2 (flying_false n s1 b) Q3') in D.
  assert (Fi : a_fly (slots s1 i) = None).
  { destruct (a_fly (slots s1 i)) as [y|] eqn:E; [|reflexivity]. destruct (bi_fly _ _ I1 i y Li E) as (U & _). congruence. }
  rewrite Fi in D. set (s2 := set_slot s1 i (mkA true (Some b) (Some b))) in *.
  assert (B1 : next s1 = next s) by apply Sm.
  assert (I2 : BI n s2).
  { destruct I1 as [J1 J2 J3 J4 J5]. unfold s2. constructor; cbn; auto.
    - intros k y Lk Ek. destruct (Nat.eqb k i); [|auto]. cbn in *. injection Ek as <-. do 2 (split; [reflexivity|]). split; [exact Q2'|lia].
    - intros k m y Lk Lm Ek Em. destruct (Nat.eqb k i) eqn:E1, (Nat.eqb m i) eqn:E2; cbn in *.
      + apply Nat.eqb_eq in E1, E2. congruence.
      + injection Ek as <-. exfalso. apply Q3'. exists m. auto.
      + injection Em as <-. exfalso. apply Q3'. exists k. auto.
      + eapply J4; eauto. }
  assert (M2 : mine n s2 i b) by (split; [exact Li|cbn; rewrite Nat.eqb_refl; reflexivity]).
  assert (G2 : forall y, y <> b -> fly n s2 y -> fly n s1 y).
  { intros y Ny (k & Lk & Ek). cbn in Ek. destruct (Nat.eqb k i); [cbn in Ek; congruence|]. exists k. auto. }
  destruct (wait_ok _ n s2 i b rd (io_cancel x) r s' I2 M2 NE D) as (A & B & C & E & H & T & X).
  split; [exact A|]. split; [eapply same_trans; [exact Sm|exact B]|]. split; [exact E|]. split; [exact T|].
  split.
  - intros y Ny Nf Fy. apply Nf. apply G. apply G2; [exact Ny|]. apply H. exact Fy.
  - intros y Ny Nf Y. apply Fo; [exact Nf|]. apply (X y); [|exact Y]. intros Fy. apply Nf. apply G. apply G2; assumption.
Qed.

(* ---------------- operations ---------------- *)
(* task->iobuf is allocated; it is in flight only after a timed out renewal *)
Definition INV (n : nat) (s : ast) : Prop :=
  BI n s /\ (forall b, tio s = Some b -> b < next s /\ ~ In b (freed s) /\ (prev s = false -> ~ fly n s b)).
Definition good_io (x : io) : bool := no_err (io_wait x).
Definition good_op (o : aop) : bool :=
  match o with
  | OIo _ l => forallb good_io l
  | ORenew _ x _ w => good_io x && good_io w
  | _ => false
  end.

Lemma alloc_ok : forall n s, BI n s -> BI n (snd (alloc s)) /\ quiet n (snd (alloc s)) (next s) /\
  (forall x, fly n (snd (alloc s)) x <-> fly n s x) /\ freed (snd (alloc s)) = freed s /\ slots (snd (alloc s)) = slots s /\
  tio (snd (alloc s)) = tio s /\ prev (snd (alloc s)) = prev s /\ next (snd (alloc s)) = S (next s).
Proof.
  intros n s I. cbn. split; [|split; [|split; [|auto 8]]].
  - destruct I as [I1 I2 I3 I4 I5]. constructor; cbn; auto.
    + intros i b L E. destruct (I3 i b L E) as (A & B & C & D). do 3 (split; [assumption|]). lia.
    + intros b H. apply I5 in H. lia.
  - split; [cbn; lia|]. split; [cbn; intros X; apply (bi_bound _ _ I) in X; lia|].
    intros (i & L & E). cbn in E. destruct (bi_fly _ _ I i _ L E) as (_ & _ & _ & D). lia.
  - intros x. unfold fly. cbn. tauto.
Qed.

Lemma io_list_ok : forall l n s rd b r s', BI n s -> quiet n s b -> forallb good_io l = true ->
  io_list n s rd b l = (r, s') ->
  BI n s' /\ same s s' /\ ~ In b (freed s') /\ (is_timeout r = false -> ~ fly n s' b) /\
  keeps n s s' b /\ (forall y, y <> b -> ~ fly n s y -> In y (freed s') -> In y (freed s)).
Proof.
  induction l as [|x l IH]; intros n s rd b r s' I Q G D; cbn [io_list] in D.
  - injection D as <- <-. destruct Q as (Q1 & Q2 & Q3). split; [exact I|]. split; [apply same_refl|]. do 2 (split; [auto|]). split; [intros y _ H; exact H|auto].
  - cbn [forallb] in G. apply andb_true_iff in G. destruct G as (G1 & G2).
    destruct (do_aio n s rd b x) as [r1 s1] eqn:E. destruct (do_aio_ok n s rd b x r1 s1 I Q G1 E) as (A & B & C & T & K & Y).
    destruct r1; try (injection D as <- <-; auto 8; fail).
    assert (Q' : quiet n s1 b). { split; [destruct B as (B1 & _); rewrite B1; apply Q|]. split; [exact C|apply T; reflexivity]. }
    destruct (IH n s1 rd b r s' A Q' G2 D) as (A2 & B2 & C2 & T2 & K2 & Y2).
    split; [exact A2|]. split; [eapply same_trans; eauto|]. do 2 (split; [assumption|]).
    split; [intros y Ny Nf; apply K2; [exact Ny|]; apply K; assumption|].
    intros y Ny Nf In'. apply Y; [exact Ny|exact Nf|]. apply Y2; [exact Ny|apply K; assumption|exact In'].
Qed.

(* an I/O on a fresh buffer, freed if it did not time out, keeps everything; it does
   not touch buffers that were not in flight *)
Lemma fresh_io : forall n s rd l r s2, INV n s -> prev s = false -> forallb good_io l = true ->
  io_list n (snd (alloc s)) rd (next s) l = (r, s2) ->
  INV n (if is_timeout r then s2 else free_buf n s2 (next s)) /\ prev (if is_timeout r then s2 else free_buf n s2 (next s)) = false /\
  lvb (if is_timeout r then s2 else free_buf n s2 (next s)) = lvb s /\
  (forall b, tio s = Some b -> ~ fly n (if is_timeout r then s2 else free_buf n s2 (next s)) b).
Proof.
  intros n s rd l r s2 (I & T) P G E. destruct (alloc_ok n s I) as (I1 & Q & FE & Fr1 & Sl1 & T1 & P1 & N1).
  destruct (io_list_ok l n _ rd (next s) r s2 I1 Q G E) as (A & B & C & Tm & K & Y). destruct B as (B1 & B2 & B3 & B4).
  assert (TIO : forall b, tio s = Some b -> b < next s2 /\ ~ In b (freed s2) /\ ~ fly n s2 b).
  { intros b Eb. destruct (T b Eb) as (L & F & X). specialize (X P). assert (Nb : b <> next s) by lia.
    split; [lia|]. split; [intros H; apply F; rewrite <- Fr1; apply (Y b Nb); [rewrite FE; exact X|exact H]|]. apply K; [exact Nb|]. rewrite FE. exact X. }
  destruct (is_timeout r) eqn:Er.
  - split; [split; [exact A|]|].
    + intros b Eb. rewrite B2, T1 in Eb. destruct (TIO b Eb) as (L & F & X). auto.
    + split; [congruence|]. split; [exact B4|]. intros b Eb. apply TIO. exact Eb.
  - assert (L2 : next s < next s2) by lia.
    destruct (free_BI n s2 (next s) A L2 C (Tm eq_refl)) as (A2 & Fr & Sl & (S1 & S2 & S3 & S4) & Ts).
    assert (FF : forall x, fly n (free_buf n s2 (next s)) x <-> fly n s2 x) by (intros x; unfold fly; rewrite Sl; tauto).
    split; [split; [exact A2|]|].
    + intros b Eb. rewrite S2, B2, T1 in Eb. destruct (TIO b Eb) as (L & F & X). split; [lia|].
      split; [rewrite Fr; intros [H|H]; [destruct (T b Eb); lia|auto]|]. intros _. rewrite FF. exact X.
    + split; [rewrite S3, B3, P1; exact P|]. split; [rewrite S4, B4; reflexivity|]. intros b Eb. rewrite FF. apply TIO. exact Eb.
Qed.

Lemma op_io_ok : forall n s rd l, INV n s -> prev s = false -> forallb good_io l = true -> INV n (op_io n s rd l).
Proof.
  intros n s rd l I P G. unfold op_io. cbn [alloc]. fold (snd (alloc s)).
  change (mkS (slots s) (freed s) (S (next s)) (tio s) (tsl s) (prev s) (lvb s) (bad s)) with (snd (alloc s)).
  destruct (io_list n (snd (alloc s)) rd (next s) l) as [r s2] eqn:E.
  destruct (fresh_io n s rd l r s2 I P G E) as (A & _). exact A.
Qed.

(* reading for a renewal *)
Lemma BI_tt : forall n s a b, BI n s -> BI n (set_tio (set_tsl s a) b).
Proof. intros n s a b [I1 I2 I3 I4 I5]. constructor; assumption. Qed.

Lemma reap_ok : forall g n s i b r s', BI n s -> mine n s i b -> reap_wait n s i g = (r, s') ->
  BI n s' /\ same s s' /\ ~ In b (freed s') /\ (r = RvOk -> ~ fly n s' b).
Proof.
  induction g as [|e g IH]; intros n s i b r s' I M W; cbn [reap_wait] in W;
    assert (NF : ~ In b (freed s)) by (destruct M as (L & E); apply (bi_fly _ _ I i b L E)).
  - injection W as <- <-. split; [exact I|]. split; [apply same_refl|]. split; [exact NF|discriminate].
  - destruct e as [| |j ok].
    + injection W as <- <-. split; [exact I|]. split; [apply same_refl|]. split; [exact NF|discriminate].
    + injection W as <- <-. split; [exact I|]. split; [apply same_refl|]. split; [exact NF|discriminate].
    + destruct (can_event n s j) eqn:C; [|eapply IH; eauto]. destruct (Nat.eqb j i) eqn:EJ.
      * injection W as <- <-. destruct (finish_slot n s i b I M) as (A & B & D & F & G).
        split; [exact A|]. split; [exact B|]. split; [rewrite D; exact NF|auto].
      * apply Nat.eqb_neq in EJ. destruct (collect_BI n s j I C) as (I1 & Sm & Ts & Fr & S1 & S2 & Fo).
        assert (M1 : mine n (collect n s j) i b). { destruct M as (L & E). split; [exact L|]. rewrite S1 by congruence. exact E. }
        destruct (IH n _ i b r s' I1 M1 W) as (A & B & D & F). split; [exact A|]. split; [eapply same_trans; eauto|]. auto.
Qed.

Definition read_fresh (n : nat) (x : io) (s0 : ast) : rv * ast :=
  let s1 := match tsl s0 with Some _ => set_tio (set_tsl s0 None) None | None => s0 end in
  match tio s1 with
  | Some b => do_aio n s1 true b x
  | None => let '(b, s2) := alloc s1 in do_aio n (set_tio s2 (Some b)) true b x
  end.
Lemma read_fresh_ok : forall n x s r s', BI n s -> (forall b, tio s = Some b -> quiet n s b) -> good_io x = true ->
  read_fresh n x s = (r, s') ->
  BI n s' /\ prev s' = prev s /\ exists b, tio s' = Some b /\ b < next s' /\ ~ In b (freed s') /\ (is_timeout r = false -> ~ fly n s' b).
Proof.
  intros n x s r s' I T G E. unfold read_fresh in E.
  set (s1 := match tsl s with Some _ => _ | None => s end) in E.
  assert (I1 : BI n s1) by (unfold s1; destruct (tsl s); [apply BI_tt; exact I|exact I]).
  assert (T1 : forall b, tio s1 = Some b -> quiet n s1 b) by (unfold s1; destruct (tsl s); [discriminate|exact T]).
  assert (P1 : prev s1 = prev s) by (unfold s1; destruct (tsl s); reflexivity).
  destruct (tio s1) as [b|] eqn:ET.
  - destruct (do_aio_ok n s1 true b x r s' I1 (T1 b eq_refl) G E) as (A & (B1 & B2 & B3 & B4) & C & D & K & Y).
    split; [exact A|]. split; [congruence|]. exists b. split; [congruence|]. split; [rewrite B1; apply (T1 b eq_refl)|]. auto.
  - destruct (alloc_ok n s1 I1) as (I2 & Q & FE & Fr & Sl & T2 & P2 & N2).
    destruct (alloc s1) as [b s2] eqn:EA. cbn [snd] in *. assert (Eb : b = next s1) by (unfold alloc in EA; congruence). subst b.
    assert (I3 : BI n (set_tio s2 (Some (next s1)))) by (destruct I2; constructor; assumption).
    destruct (do_aio_ok n (set_tio s2 (Some (next s1))) true (next s1) x r s' I3 Q G E) as (A & (B1 & B2 & B3 & B4) & C & D & K & Y).
    split; [exact A|]. split; [rewrite B3; cbn; congruence|]. exists (next s1). split; [rewrite B2; reflexivity|].
    split; [rewrite B1; cbn; lia|]. auto.
Qed.

Lemma reap_no : forall g n s i r s', BI n s -> ~ (i < n /\ a_fly (slots s i) <> None) -> reap_wait n s i g = (r, s') ->
  BI n s' /\ r <> RvOk.
Proof.
  induction g as [|e g IH]; intros n s i r s' I M W; cbn [reap_wait] in W.
  - injection W as <- <-. split; [exact I|discriminate].
  - destruct e as [| |j ok]; [injection W as <- <-; split; [exact I|discriminate]..|].
    destruct (can_event n s j) eqn:C; [|eapply IH; eauto].
    assert (Nj : j <> i).
    { intros ->. apply M. unfold can_event in C. apply andb_true_iff in C. destruct C as (L & C). apply Nat.ltb_lt in L.
      split; [exact L|]. intros H. rewrite H in C. discriminate C. }
    destruct (Nat.eqb_neq j i) as (_ & EJ). rewrite (EJ Nj) in W.
    destruct (collect_BI n s j I C) as (I1 & Sm & Ts & Fr & S1 & S2 & Fo).
    eapply IH; [exact I1| |exact W]. rewrite S1 by congruence. exact M.
Qed.

Lemma renew_read_ok : forall n s g x r s', INV n s -> good_io x = true -> renew_read n s g x = (r, s') ->
  BI n s' /\ exists b, tio s' = Some b /\ b < next s' /\ ~ In b (freed s') /\ (is_timeout r = false -> ~ fly n s' b).
Proof.
  intros n s g x r s' (I & T) G E.
  assert (E' : (if prev s
    then match tsl s, tio s with
         | Some i, Some b => match reap n s b g with
                             | (RvOk, s1) => (RvOk, set_tsl s1 None)
                             | (_, s1) => read_fresh n x (set_tio (set_tsl s1 None) None) end
         | _, _ => read_fresh n x (set_tio (set_tsl s None) None) end
    else read_fresh n x s) = (r, s')) by exact E. clear E.
  assert (N : forall s0, BI n s0 -> read_fresh n x (set_tio (set_tsl s0 None) None) = (r, s') ->
    BI n s' /\ exists b, tio s' = Some b /\ b < next s' /\ ~ In b (freed s') /\ (is_timeout r = false -> ~ fly n s' b)).
  { intros s0 I0 F. destruct (read_fresh_ok n x _ r s' (BI_tt n s0 None None I0) ltac:(discriminate) G F) as (A & _ & B). split; assumption. }
  destruct (prev s) eqn:P.
  - destruct (tsl s) as [i|] eqn:ETS; [|exact (N s I E')]. destruct (tio s) as [b|] eqn:ET; [|exact (N s I E')].
    destruct (reap n s b g) as [r1 s1] eqn:ER. destruct (T b eq_refl) as (L & F & _).
    assert (RI : BI n s1 /\ (r1 = RvOk -> tio s1 = Some b /\ b < next s1 /\ ~ In b (freed s1) /\ ~ fly n s1 b)).
    { unfold reap in ER. rewrite ETS in ER.
      destruct (a_used (slots s i) && opt_is (a_buf (slots s i)) b) eqn:EU; [|injection ER as <- <-; split; [exact I|discriminate]].
      apply andb_true_iff in EU. destruct EU as (_ & EU).
      assert (EB : a_buf (slots s i) = Some b) by (unfold opt_is in EU; destruct (a_buf (slots s i)); [|discriminate EU]; apply Nat.eqb_eq in EU; congruence).
      destruct (lt_dec i n) as [Li|Li]; [destruct (a_fly (slots s i)) as [y|] eqn:EF|].
      - assert (y = b) by (destruct (bi_fly _ _ I i y Li EF) as (_ & B & _); congruence). subst y.
        destruct (reap_ok g n s i b r1 s1 I (conj Li EF) ER) as (A & (B1 & B2 & B3 & B4) & C & D).
        split; [exact A|]. intros ->. split; [congruence|]. split; [lia|]. auto.
      - destruct (reap_no g n s i r1 s1 I ltac:(intros (_ & H); congruence) ER) as (A & B). split; [exact A|congruence].
      - destruct (reap_no g n s i r1 s1 I ltac:(intros (H & _); congruence) ER) as (A & B). split; [exact A|congruence]. }
    destruct RI as (I1 & R1). destruct r1; [|exact (N s1 I1 E')..].
    injection E' as <- <-. destruct (R1 eq_refl) as (A & B & C & D).
    split; [destruct I1; constructor; assumption|]. exists b. auto.
  - assert (TQ : forall b, tio s = Some b -> quiet n s b) by (intros b Eb; destruct (T b Eb) as (L & F & X); split; [exact L|split; [exact F|exact (X eq_refl)]]).
    destruct (read_fresh_ok n x s r s' I TQ G E') as (A & _ & B). split; assumption.
Qed.

Lemma renew_ok : forall n s g x wok w, INV n s -> good_io x = true -> good_io w = true -> INV n (op_renew n s g x wok w).
Proof.
  intros n s g x wok w I Gx Gw. unfold op_renew. destruct (renew_read n s g x) as [r s1] eqn:E.
  destruct (renew_read_ok n s g x r s1 I Gx E) as (A & b & ET & L & F & T).
  assert (B0 : forall p, (p = false -> is_timeout r = false) -> INV n (set_prev s1 p)).
  { intros p Hp. split; [destruct A; constructor; assumption|]. cbn. intros b' Eb. assert (b' = b) by congruence. subst b'.
    split; [exact L|]. split; [exact F|]. intros P. apply T. auto. }
  destruct r; [|apply B0; auto..].
  destruct (negb wok); [apply B0; auto|].
  assert (I1 : INV n (set_prev s1 false)) by (apply B0; reflexivity).
  (* the write works on s1 as on set_prev s1 false, up to prev *)
  destruct (alloc_ok n s1 A) as (I2 & Q & FE & Fr2 & Sl2 & T2 & P2 & N2).
  destruct (alloc s1) as [c s2] eqn:EA. cbn [snd] in *. assert (c = next s1) by (unfold alloc in EA; congruence). subst c.
  destruct (do_aio n s2 false (next s1) w) as [r2 s3] eqn:ED.
  destruct (do_aio_ok n s2 false (next s1) w r2 s3 I2 Q Gw ED) as (A3 & (B1 & B2 & B3 & B4) & C3 & T3 & K3 & Y3).
  assert (NB : b <> next s1) by lia.
  assert (FB : ~ fly n s3 b) by (apply K3; [exact NB|]; rewrite FE; apply T; reflexivity).
  assert (RB : ~ In b (freed s3)) by (intros H; apply F; rewrite <- Fr2; apply (Y3 b NB); [rewrite FE; apply T; reflexivity|exact H]).
  destruct (is_timeout r2) eqn:Er.
  - split; [destruct A3; constructor; assumption|]. cbn. intros b' Eb. assert (b' = b) by congruence. subst b'.
    split; [lia|]. auto.
  - destruct (free_BI n s3 (next s1) A3 ltac:(lia) C3 (T3 eq_refl)) as (A4 & Fr & Sl & (S1 & S2 & S3 & S4) & Ts).
    split; [destruct A4; constructor; assumption|]. cbn [tio prev set_prev]. intros b' Eb. assert (b' = b) by congruence. subst b'.
    split; [cbn [next set_prev]; lia|]. split; [cbn [freed set_prev]; rewrite Fr; intros [H|H]; [congruence|auto]|].
    intros _ (k & Lk & Ek). cbn [slots set_prev] in Ek. rewrite Sl in Ek. apply FB. exists k. auto.
Qed.

Lemma step_ok : forall n s o s', INV n s -> good_op o = true -> astep n s o = Some s' -> INV n s'.
Proof.
  intros n s o s' I G E. destruct o as [rd l|x|x| |x| |g x wok w]; try discriminate G; cbn [good_op] in G.
  - cbn [astep] in E. destruct (prev s) eqn:P; [discriminate E|]. injection E as <-. apply op_io_ok; assumption.
  - apply andb_true_iff in G. destruct G as (G1 & G2). cbn [astep] in E. injection E as <-. apply renew_ok; assumption.
Qed.
Lemma init_ok : forall n, INV n ainit.
Proof.
  intros n. split; [|discriminate]. constructor; cbn; try discriminate; try constructor. intros b [].
Qed.
Lemma steps_ok : forall os n s s', INV n s -> forallb good_op os = true -> asteps n s os = Some s' -> INV n s'.
Proof.
  induction os as [|o os IH]; intros n s s' I G E; cbn [asteps] in E.
  - injection E as <-. exact I.
  - cbn [forallb] in G. apply andb_true_iff in G. destruct G as (G1 & G2). destruct (astep n s o) as [s1|] eqn:ES; [|discriminate E].
    eapply IH; [eapply step_ok; eauto|exact G2|exact E].
Qed.

(* closing *)
Definition CI (n : nat) (s : ast) : Prop := BI n s /\ forall b, tio s = Some b -> b < next s /\ ~ In b (freed s).
Lemma close_loop_ok : forall g n s, CI n s -> CI n (close_loop n s g).
Proof.
  induction g as [|e g IH]; intros n s (I & T); cbn [close_loop]; [split; assumption|].
  destruct e as [| |j ok]; [split; assumption|apply IH; split; assumption|].
  destruct (can_event n s j) eqn:C; [|apply IH; split; assumption].
  apply IH.
  set (s0 := match a_buf (slots s j) with
             | Some b => match tio s with Some t => if Nat.eqb b t then set_tio s None else s | None => s end
             | None => s end).
  assert (CE := C). unfold can_event in CE. apply andb_true_iff in CE. destruct CE as (L & CE). apply Nat.ltb_lt in L.
  destruct (a_fly (slots s j)) as [b|] eqn:EF; [|discriminate CE]. destruct (bi_fly _ _ I j b L EF) as (U & B & F & N).
  assert (S0 : BI n s0 /\ can_event n s0 j = true /\ next s0 = next s /\ freed s0 = freed s /\ slots s0 = slots s /\
    (forall t, tio s0 = Some t -> tio s = Some t /\ t <> b)).
  { unfold s0. rewrite B. destruct (tio s) as [t|] eqn:ET.
    - destruct (Nat.eqb b t) eqn:EB.
      + split; [destruct I; constructor; assumption|]. do 4 (split; [exact C || reflexivity|]). discriminate.
      + do 5 (split; [exact I || exact C || reflexivity|]). intros t' E. apply Nat.eqb_neq in EB. split; congruence.
    - do 5 (split; [exact I || exact C || reflexivity|]). congruence. }
  destruct S0 as (I0 & C0 & N0 & F0 & L0 & T0). destruct (collect_BI n s0 j I0 C0) as (A & (B1 & B2 & _) & _ & _ & _ & _ & Fo).
  split; [exact A|]. intros t Et. rewrite B2 in Et. destruct (T0 t Et) as (E1 & E2). destruct (T t E1) as (G1 & G2).
  split; [lia|]. intros H. apply G2. rewrite <- F0. apply (Fo t); [|exact H]. rewrite L0, EF. congruence.
Qed.
Lemma close_ok : forall n s g, INV n s -> C45_ok n (op_close n s g).
Proof.
  intros n s g (I & T). assert (C : CI n s) by (split; [exact I|]; intros b E; destruct (T b E) as (A & B & _); auto).
  destruct (close_loop_ok g n s C) as (I1 & T1). unfold op_close.
  assert (I2 : BI n (destroy (close_loop n s g))). { destruct I1 as [J1 J2 J3 J4 J5]. constructor; cbn; auto; discriminate. }
  destruct (tio (destroy (close_loop n s g))) as [b|] eqn:E; [|apply BI_ok; exact I2].
  destruct (T1 b E) as (L & F).
  assert (NF : ~ fly n (destroy (close_loop n s g)) b) by (intros (k & _ & Ek); discriminate Ek).
  destruct (free_BI n _ b I2 L F NF) as (A & _). apply BI_ok. destruct A; constructor; assumption.
Qed.

(* Every I/O path of the lease code other than the resource index read and the value
   block - plain reads and writes of one or several sectors on one buffer, lease
   renewal with its reaped reads, closing the task - keeps the buffers safe, for every
   order of timeouts, failed or successful cancellations, late completions, errors of
   single I/Os and slot exhaustion, as long as io_getevents itself does not fail while
   an I/O is waited for.
   Missing from the full statement: read_rindex, the value block, and io_getevents
   errors (each refuted below). *)
Theorem C45_io_partial : forall n os s g, forallb good_op os = true -> asteps n ainit os = Some s ->
  C45_ok n s /\ C45_ok n (op_close n s g).
Proof.
  intros n os s g G E. assert (I : INV n s) by (eapply steps_ok; [apply init_ok|exact G|exact E]).
  split; [apply BI_ok; apply I|apply close_ok; exact I].
Qed.

(* ---------------- refutations ---------------- *)
Definition seen_bad (n : nat) (os : list aop) : option (option viol) := option_map bad (asteps n ainit os).
Lemma seen_bad_run : forall n os v, seen_bad n os = Some (Some v) -> exists s, asteps n ainit os = Some s /\ bad s = Some v.
Proof. intros n os v H. unfold seen_bad in H. destruct (asteps n ainit os) as [s|]; [|discriminate H]. cbn in H. exists s. split; [reflexivity|congruence]. Qed.

Definition io_good : io := mkIo GTimeout true [GEv 0 true] false.
Definition io_slow : io := mkIo GTimeout true [GTimeout] false.        (* times out, cancel fails *)
Definition io_gerr : io := mkIo GTimeout true [GErr] false.

(* reading the resource index times out: read_rindex frees the buffer during the I/O *)
Theorem C45_rindex_refuted : exists s, asteps 4 ainit [ORindex io_slow] = Some s /\ bad s = Some VInFlight.
Proof. apply seen_bad_run. vm_compute. reflexivity. Qed.
(* ... and a later I/O collects its event and frees it again *)
Theorem C45_rindex_double_refuted : exists s,
  asteps 4 ainit [ORindex io_slow; OIo true [mkIo GTimeout true [GEv 0 true; GEv 1 true] false]] = Some s /\
  ~ NoDup (freed s).
Proof.
  assert (H : option_map freed (asteps 4 ainit [ORindex io_slow; OIo true [mkIo GTimeout true [GEv 0 true; GEv 1 true] false]]) = Some [1; 0; 0])
    by (vm_compute; reflexivity).
  destruct (asteps 4 ainit _) as [s|]; [|discriminate H]. exists s. split; [reflexivity|]. cbn in H. injection H as ->.
  intros D. inversion D as [|? ? _ D2]. inversion D2 as [|? ? X _]. apply X. left. reflexivity.
Qed.
(* the value block: the read at acquire times out, the client sets a value: the buffer
   is changed under the read; or the resource is freed: the buffer is freed during it *)
Theorem C45_lvb_reuse_refuted : exists s, asteps 4 ainit [OLvbOpen io_slow; OLvbSet] = Some s /\ bad s = Some VReuse.
Proof. apply seen_bad_run. vm_compute. reflexivity. Qed.
Theorem C45_lvb_free_refuted : exists s,
  asteps 4 ainit [OLvbOpen io_good; OLvbSet; OLvbWrite io_slow; OLvbClose] = Some s /\ bad s = Some VInFlight.
Proof. apply seen_bad_run. vm_compute. reflexivity. Qed.
(* io_getevents fails while a sector is written: the buffer is freed with the I/O
   still in progress *)
Theorem C45_gerr_refuted : exists s, asteps 4 ainit [OIo false [io_gerr]] = Some s /\ bad s = Some VInFlight.
Proof. apply seen_bad_run. vm_compute. reflexivity. Qed.
Theorem C45_refuted : ~ C45_statement.
Proof.
  intros H. destruct C45_rindex_refuted as (s & E & B). destruct (H _ _ _ [] E) as ((N & _) & _). congruence.
Qed.

(* non-vacuity: a renewal read times out, the next one takes over its late result, the
   write times out, its completion is collected by a later read, a full slot table is
   emptied by a late event, and the task is closed *)
Definition nv_ops : list aop :=
  [ORenew [] io_slow true io_good;
   ORenew [GEv 0 true] io_good true io_slow;
   ORenew [] (mkIo GTimeout true [GEv 0 true; GEv 1 true] false) true (mkIo GTimeout true [GEv 0 true] false);
   OIo false [io_good; io_slow]; OIo true [mkIo GTimeout true [GTimeout] false];
   OIo true [mkIo (GEv 0 true) true [GEv 0 true] false]].
Example C45_nonvacuous : forallb good_op nv_ops = true /\
  option_map (fun s => (rev (freed s), flying 2 s 5, tio s)) (asteps 2 ainit nv_ops) = Some ([1; 3; 4; 6], true, Some 2).
Proof. split; [reflexivity|vm_compute]. reflexivity. Qed.

Print Assumptions C45_io_partial.
Print Assumptions C45_refuted.
Print Assumptions C45_rindex_double_refuted.
Print Assumptions C45_lvb_reuse_refuted.
Print Assumptions C45_lvb_free_refuted.
Print Assumptions C45_gerr_refuted.
