(* C87: a lockspace thread closes what it opened, nothing else, and writes to its own disk. *)
From Coq Require Import List Lia Bool Arith.
From Verif Require Import LsFds.
Import ListNotations.

(* ---- specification ---- *)
Definition own (t : nat) (x : option file) : Prop := x = Some (Disk t) \/ x = Some (Wd t).
Definition closes_own (s : fst8) : Prop := forall t x, In (t, x) (f_closed s) -> own t x.
Definition writes_own (s : fst8) : Prop := forall t x, In (t, x) (f_io s) -> x = Some (Disk t).
Definition nothing_left (s : fst8) : Prop :=
  forall t f, l_pc (f_loc s t) = PEnd -> ~ own t (f_tab s f).

Definition C87_close_statement : Prop := forall use es s, frun use fds0 es = Some s -> closes_own s.
Definition C87_write_statement : Prop := forall use es s, frun use fds0 es = Some s -> writes_own s.
Definition C87_left_statement : Prop := forall use es s, frun use fds0 es = Some s -> nothing_left s.

(* open_watchdog fails *)
Fixpoint wd_opens (use : bool) (s : fst8) (es : list fev) : Prop :=
  match es with
  | [] => True
  | e :: r =>
      (match e with
       | FStep t false _ => use = true -> l_pc (f_loc s t) <> POpenWd
       | _ => True
       end) /\ match fstep use s e with Some s' => wd_opens use s' r | None => True end
  end.

(* ---- proofs ---- *)
Definition dset (l : loc) : option nat := match l_pc l with P0 | PEnd => None | _ => Some (l_disk l) end.
Definition wset (use : bool) (l : loc) : option nat :=
  if use then match l_pc l with POpenWd | PAcq | PAct => Some (l_con l) | PLoop => Some (l_wd l) | _ => None end else None.

Record finv (use : bool) (s : fst8) : Prop := {
  i_disk : forall t f, f_tab s f = Some (Disk t) <-> dset (f_loc s t) = Some f;
  i_wd : forall t f, f_tab s f = Some (Wd t) <-> wset use (f_loc s t) = Some f;
  i_close : closes_own s;
  i_io : writes_own s
}.

Lemma finv0 use : finv use fds0.
Proof.
  assert (N : forall f x, x <> Other -> tab0 f <> Some x).
  { intros f x H. unfold tab0. destruct (f <? 3); congruence. }
  constructor.
  - intros t f. split; intros H; [exfalso; eapply N; [|exact H]; discriminate|discriminate].
  - intros t f. split; intros H; [exfalso; eapply N; [|exact H]; discriminate|]. unfold wset in H. cbn in H. destruct use; discriminate.
  - intros t x [].
  - intros t x [].
Qed.

Lemma lowest_none T f : lowest T f = true -> T f = None.
Proof. unfold lowest. destruct (T f); [discriminate|reflexivity]. Qed.

(* a step of t that opens, closes or keeps *)
Lemma inv_go use s t l :
  finv use s -> dset l = dset (f_loc s t) -> wset use l = wset use (f_loc s t) -> finv use (go s t l).
Proof.
  intros V D W. constructor; cbn; try apply V.
  - intros u f. unfold setl. destruct (u =? t) eqn:E; [apply Nat.eqb_eq in E; subst u; rewrite D|]; apply V.
  - intros u f. unfold setl. destruct (u =? t) eqn:E; [apply Nat.eqb_eq in E; subst u; rewrite W|]; apply V.
Qed.

Lemma inv_io use s t : finv use s -> dset (f_loc s t) = Some (l_disk (f_loc s t)) -> finv use (io s t).
Proof.
  intros V D. constructor; cbn; try apply V. intros u x [H|H]; [|eapply V; exact H].
  injection H as <- <-. apply (i_disk _ _ V). exact D.
Qed.

Lemma inv_close use s t f l :
  finv use s -> own t (f_tab s f) ->
  (forall g, dset l = Some g <-> dset (f_loc s t) = Some g /\ g <> f) ->
  (forall g, wset use l = Some g <-> wset use (f_loc s t) = Some g /\ g <> f) ->
  finv use (close s t f l).
Proof.
  intros V O D W.
  assert (ND : forall u, u <> t -> f_tab s f <> Some (Disk u) /\ f_tab s f <> Some (Wd u)) by (intros u N; destruct O; split; congruence).
  constructor; cbn; try apply V.
  - intros u g. unfold set, setl. destruct (u =? t) eqn:E.
    + apply Nat.eqb_eq in E. subst u. rewrite D. destruct (g =? f) eqn:G.
      * apply Nat.eqb_eq in G. split; [discriminate|tauto].
      * apply Nat.eqb_neq in G. rewrite (i_disk _ _ V). tauto.
    + apply Nat.eqb_neq in E. destruct (g =? f) eqn:G.
      * apply Nat.eqb_eq in G. subst g. split; [discriminate|]. intros H. apply (i_disk _ _ V) in H. destruct (ND u E); congruence.
      * apply V.
  - intros u g. unfold set, setl. destruct (u =? t) eqn:E.
    + apply Nat.eqb_eq in E. subst u. rewrite W. destruct (g =? f) eqn:G.
      * apply Nat.eqb_eq in G. split; [discriminate|tauto].
      * apply Nat.eqb_neq in G. rewrite (i_wd _ _ V). tauto.
    + apply Nat.eqb_neq in E. destruct (g =? f) eqn:G.
      * apply Nat.eqb_eq in G. subst g. split; [discriminate|]. intros H. apply (i_wd _ _ V) in H. destruct (ND u E); congruence.
      * apply V.
  - intros u x [H|H]; [|eapply V; exact H]. injection H as <- <-. exact O.
Qed.

Lemma inv_open use s t f x l :
  finv use s -> f_tab s f = None -> own t (Some x) ->
  dset l = (match x with Disk _ => Some f | _ => dset (f_loc s t) end) ->
  wset use l = (match x with Wd _ => Some f | _ => wset use (f_loc s t) end) ->
  (match x with Disk _ => dset (f_loc s t) = None | _ => wset use (f_loc s t) = None end) ->
  finv use (go (open s f x) t l).
Proof.
  intros V N O D W Z.
  assert (NN : forall u, dset (f_loc s u) <> Some f /\ wset use (f_loc s u) <> Some f).
  { intros u. split; intros H; [apply (i_disk _ _ V) in H|apply (i_wd _ _ V) in H]; congruence. }
  constructor; cbn; try apply V.
  - intros u g. unfold set, setl. destruct (u =? t) eqn:E.
    + apply Nat.eqb_eq in E. subst u. rewrite D. destruct (g =? f) eqn:G.
      * apply Nat.eqb_eq in G. subst g. destruct x as [|v|v]; destruct O as [O|O]; injection O as O; subst; try discriminate; try tauto.
        split; [discriminate|]. intros H. destruct (NN t); congruence.
      * apply Nat.eqb_neq in G. rewrite (i_disk _ _ V). destruct x; try tauto. rewrite Z. split; [discriminate|congruence].
    + apply Nat.eqb_neq in E. destruct (g =? f) eqn:G.
      * apply Nat.eqb_eq in G. subst g. split; [destruct O; congruence|]. intros H. destruct (NN u); congruence.
      * apply V.
  - intros u g. unfold set, setl. destruct (u =? t) eqn:E.
    + apply Nat.eqb_eq in E. subst u. rewrite W. destruct (g =? f) eqn:G.
      * apply Nat.eqb_eq in G. subst g. destruct x as [|v|v]; destruct O as [O|O]; injection O as O; subst; try discriminate; try tauto.
        split; [discriminate|]. intros H. destruct (NN t); congruence.
      * apply Nat.eqb_neq in G. rewrite (i_wd _ _ V). destruct x; try tauto. rewrite Z. split; [discriminate|congruence].
    + apply Nat.eqb_neq in E. destruct (g =? f) eqn:G.
      * apply Nat.eqb_eq in G. subst g. split; [destruct O; congruence|]. intros H. destruct (NN u); congruence.
      * apply V.
Qed.

Ltac pcs := unfold dset, wset in *; cbn in *.

Lemma finv_step use s e s' :
  finv use s -> wd_opens use s [e] -> fstep use s e = Some s' -> finv use s'.
Proof.
  intros V (NW & _) S.
  assert (DD : forall t, l_pc (f_loc s t) <> P0 -> l_pc (f_loc s t) <> PEnd -> f_tab s (l_disk (f_loc s t)) = Some (Disk t)).
  { intros t A B. apply (i_disk _ _ V). unfold dset. destruct (l_pc (f_loc s t)); congruence. }
  destruct e as [t ok fd|t ok|t|fd|fd]; cbn [fstep] in S.
  - destruct (l_pc (f_loc s t)) eqn:P; try discriminate.
    + destruct ok.
      * destruct (lowest (f_tab s) fd) eqn:L; [|discriminate]. injection S as <-.
        apply inv_open; auto; [apply lowest_none; exact L|left; reflexivity| |]; pcs; rewrite ?P; try reflexivity.
      * injection S as <-. apply inv_go; auto; pcs; rewrite P; reflexivity.
    + injection S as <-. apply inv_go; [apply inv_io; [exact V|]; pcs; rewrite P; reflexivity| |]; pcs; rewrite P; destruct ok; reflexivity.
    + destruct use; cbn in S.
      * destruct ok.
        -- destruct (lowest (f_tab s) fd) eqn:L; [|discriminate]. injection S as <-.
           apply inv_open; auto; [apply lowest_none; exact L|right; reflexivity| |]; pcs; rewrite ?P; try reflexivity.
        -- injection S as <-. apply inv_go; auto; pcs; rewrite P; reflexivity.
      * injection S as <-. apply inv_go; auto; pcs; rewrite ?P; reflexivity.
    + destruct use; cbn in S.
      * destruct ok; [|exfalso; apply NW; reflexivity]. injection S as <-. apply inv_go; auto; pcs; rewrite P; reflexivity.
      * injection S as <-. apply inv_go; auto; pcs; rewrite ?P; reflexivity.
    + assert (VI : finv use (io s t)) by (apply inv_io; [exact V|]; pcs; rewrite P; reflexivity).
      destruct ok; [injection S as <-; apply inv_go; auto; pcs; rewrite P; reflexivity|].
      destruct use; injection S as <-.
      * assert (WD : f_tab s (l_con (f_loc s t)) = Some (Wd t)) by (apply (i_wd _ _ V); pcs; rewrite P; reflexivity).
        assert (DK := DD t ltac:(rewrite P; discriminate) ltac:(rewrite P; discriminate)).
        apply inv_close; auto; [right; exact WD| |]; pcs; rewrite P; intros g.
        -- split; [|tauto]. intros H. split; [exact H|]. intros ->. injection H as H. congruence.
        -- split; [discriminate|]. intros (H & N). congruence.
      * apply inv_go; auto; pcs; rewrite ?P; reflexivity.
    + destruct use; cbn in S.
      * destruct ok; injection S as <-; [apply inv_go; auto; pcs; rewrite P; reflexivity|].
        assert (WD : f_tab s (l_con (f_loc s t)) = Some (Wd t)) by (apply (i_wd _ _ V); pcs; rewrite P; reflexivity).
        assert (DK := DD t ltac:(rewrite P; discriminate) ltac:(rewrite P; discriminate)).
        apply inv_close; auto; [right; exact WD| |]; pcs; rewrite P; intros g.
        -- split; [|tauto]. intros H. split; [exact H|]. intros ->. injection H as H. congruence.
        -- split; [discriminate|]. intros (H & N). congruence.
      * injection S as <-. apply inv_go; auto; pcs; rewrite ?P; reflexivity.
    + injection S as <-. apply inv_go; [apply inv_io; [exact V|]; pcs; rewrite P; reflexivity| |]; pcs; rewrite P; reflexivity.
    + injection S as <-. assert (DK := DD t ltac:(rewrite P; discriminate) ltac:(rewrite P; discriminate)).
      apply inv_close; auto; [left; exact DK| |]; pcs; rewrite P; intros g.
      * split; [discriminate|]. intros (H & N). congruence.
      * split; [destruct use; discriminate|]. intros (H & N). destruct use; discriminate.
  - destruct (l_pc (f_loc s t)) eqn:P; try discriminate. injection S as <-.
    apply inv_go; [apply inv_io; [exact V|]; pcs; rewrite P; reflexivity| |]; pcs; rewrite P; reflexivity.
  - destruct (l_pc (f_loc s t)) eqn:P; try discriminate. destruct use; injection S as <-.
    + assert (WD : f_tab s (l_wd (f_loc s t)) = Some (Wd t)) by (apply (i_wd _ _ V); pcs; rewrite P; reflexivity).
      assert (DK := DD t ltac:(rewrite P; discriminate) ltac:(rewrite P; discriminate)).
      apply inv_close; auto; [right; exact WD| |]; pcs; rewrite P; intros g.
      * destruct (l_ok (f_loc s t)); (split; [|tauto]; intros H; split; [exact H|]; intros ->; injection H as H; congruence).
      * destruct (l_ok (f_loc s t)); (split; [discriminate|]; intros (H & N); congruence).
    + apply inv_go; auto; pcs; rewrite ?P; try reflexivity. destruct (l_ok (f_loc s t)); reflexivity.
  - destruct (lowest (f_tab s) fd) eqn:L; [|discriminate]. injection S as <-. apply lowest_none in L.
    constructor; cbn; try apply V; intros u g; unfold set; (destruct (g =? fd) eqn:G; [apply Nat.eqb_eq in G; subst g|apply V]).
    + split; [discriminate|]. intros H. apply (i_disk _ _ V) in H. congruence.
    + split; [discriminate|]. intros H. apply (i_wd _ _ V) in H. congruence.
  - destruct (f_tab s fd) as [[| |]|] eqn:T; try discriminate. injection S as <-.
    constructor; cbn; try apply V; intros u g; unfold set; (destruct (g =? fd) eqn:G; [apply Nat.eqb_eq in G; subst g|apply V]).
    + split; [discriminate|]. intros H. apply (i_disk _ _ V) in H. congruence.
    + split; [discriminate|]. intros H. apply (i_wd _ _ V) in H. congruence.
Qed.

Lemma finv_run use es : forall s s', finv use s -> wd_opens use s es -> frun use s es = Some s' -> finv use s'.
Proof.
  induction es as [|e r IH]; intros s s' V W R; cbn in R; [congruence|].
  destruct (fstep use s e) as [s1|] eqn:E; [|discriminate]. cbn in W. rewrite E in W. destruct W as (W1 & W2).
  eapply IH; [|exact W2|exact R]. eapply finv_step; [exact V| |exact E]. cbn. rewrite E. auto.
Qed.

(* as long as open_watchdog does not fail *)
Theorem C87_partial : forall use es s,
  frun use fds0 es = Some s -> wd_opens use fds0 es -> closes_own s /\ writes_own s /\ nothing_left s.
Proof.
  intros use es s R W. assert (V := finv_run use es _ _ (finv0 use) W R). split; [apply V|]. split; [apply V|].
  intros t f P [H|H].
  - apply (i_disk _ _ V) in H. unfold dset in H. rewrite P in H. discriminate.
  - apply (i_wd _ _ V) in H. unfold wset in H. rewrite P in H. destruct use; discriminate.
Qed.
Print Assumptions C87_partial.

(* always, when sanlock does not use the watchdog *)
Theorem C87_no_watchdog : forall es s, frun false fds0 es = Some s -> closes_own s /\ writes_own s /\ nothing_left s.
Proof.
  intros es s R. eapply C87_partial; [exact R|]. clear R. generalize fds0. induction es as [|e r IH]; intros s0; [exact I|].
  cbn [wd_opens]. split; [destruct e as [? []| | | |]; auto; discriminate|]. destruct (fstep false s0 e); auto.
Qed.
Print Assumptions C87_no_watchdog.

(* ---- open_watchdog fails: disconnect_watchdog closes sp->wd_fd, which is still 0 ---- *)
(* an add that fails there *)
Definition failed_add (t d w : nat) : list fev :=
  [FStep t true d; FStep t true 0; FStep t true w; FStep t false 0; FStep t true 0].

Theorem C87_close_refuted : ~ C87_close_statement.
Proof.
  intros H. destruct (frun true fds0 (failed_add 1 3 4)) as [s|] eqn:R; [|vm_compute in R; discriminate].
  assert (X := H _ _ _ R 1 (Some Other)). vm_compute in R. injection R as <-.
  destruct X as [X|X]; [right; left; reflexivity|discriminate|discriminate].
Qed.
Print Assumptions C87_close_refuted.

(* every such failure leaves a connection to wdmd open *)
Theorem C87_left_refuted : ~ C87_left_statement.
Proof.
  intros H. destruct (frun true fds0 (failed_add 1 3 4)) as [s|] eqn:R; [|vm_compute in R; discriminate].
  assert (X := H _ _ _ R 1 4). vm_compute in R. injection R as <-. apply X; [reflexivity|]. right. reflexivity.
Qed.
Print Assumptions C87_left_refuted.

(* lockspace 1 fails; the disk of lockspace 2 becomes descriptor 0 and it is joined;
   lockspace 3 fails and closes it; the disk of lockspace 4 becomes descriptor 0;
   lockspace 2 is removed: its thread writes the free record to the disk of lockspace 4 *)
Definition ex_bad : list fev :=
  failed_add 1 3 4 ++
  [FStep 2 true 0; FStep 2 true 0; FStep 2 true 3; FStep 2 true 0; FStep 2 true 0; FStep 2 true 0; FRenew 2 true] ++
  failed_add 3 5 6 ++ [FStep 4 true 0; FStop 2; FStep 2 true 0].
Theorem C87_write_refuted : ~ C87_write_statement.
Proof.
  intros H. destruct (frun true fds0 ex_bad) as [s|] eqn:R; [|vm_compute in R; discriminate].
  assert (X := H _ _ _ R 2 (Some (Disk 4))). vm_compute in R. injection R as <-.
  assert (Y := X (or_introl eq_refl)). discriminate.
Qed.
Print Assumptions C87_write_refuted.

(* two lockspaces, one fails to join, the other is joined, renewed and left *)
Definition ex_good : list fev :=
  [FStep 1 true 3; FOpen 4; FStep 2 true 5; FStep 1 true 0; FStep 2 true 0; FStep 1 true 6; FStep 2 true 7; FStep 1 true 0;
   FStep 2 true 0; FStep 2 false 0; FStep 1 true 0; FStep 2 true 0; FStep 1 true 0; FRenew 1 true; FClose 4; FRenew 1 true; FStop 1;
   FStep 1 true 0; FStep 1 true 0].
Example C87_nonvacuous :
  wd_opens true fds0 ex_good /\
  match frun true fds0 ex_good with
  | Some s => l_pc (f_loc s 1) = PEnd /\ l_pc (f_loc s 2) = PEnd /\ f_tab s 3 = None /\ f_tab s 4 = None /\ f_tab s 0 = Some Other /\
              f_io s = [(1, Some (Disk 1)); (1, Some (Disk 1)); (1, Some (Disk 1)); (1, Some (Disk 1)); (2, Some (Disk 2)); (2, Some (Disk 2)); (1, Some (Disk 1))] /\
              f_closed s = [(1, Some (Disk 1)); (1, Some (Wd 1)); (2, Some (Disk 2)); (2, Some (Wd 2))]
  | None => False
  end.
Proof. vm_compute. repeat split; discriminate. Qed.
