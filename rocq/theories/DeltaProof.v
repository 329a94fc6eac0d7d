(* Invariant of the delta lease system of Delta.v. *)
From Coq Require Import List NArith ZArith Lia Bool Arith ZifyBool ZifyN.
From Verif Require Import Timeouts Delta.
Import ListNotations.
Open Scope N_scope.

(* a write that was issued and has not taken effect *)
Definition pend (h : hst) : option (rcd * N) :=
  match h_op h with Some (mkIop _ (Some w) re None) => Some (w, re) | _ => None end.
(* a read that took effect and has not returned *)
Definition effr (h : hst) : option (N * rcd) :=
  match h_op h with Some (mkIop _ None _ (Some p)) => Some p | _ => None end.
(* the record whose change is waited for *)
Definition l1of (h : hst) : option (rcd * N * N) :=
  match h_k h with KW l r o _ | K2 l r o => Some (l, r, o) | _ => None end.
(* the record whose survival is waited for *)
Definition post (h : hst) : option rcd :=
  match h_k h, h_op h with
  | K3 nl _, Some (mkIop _ _ _ (Some _)) => Some nl
  | KS nl _, _ => Some nl
  | K4 nl, Some (mkIop _ _ _ None) => Some nl
  | _, _ => None
  end.

(* the longest time an operation of any host may take *)
Definition dmax (c : cfg) : N := fold_right N.max 0 (map (c_d c) (c_hosts c)).

Lemma dmax_ge c i : In i (c_hosts c) -> c_d c i <= dmax c.
Proof.
  unfold dmax. induction (c_hosts c) as [|x l IH]; cbn; intros H; [contradiction|].
  destruct H as [->|H]; [|specialize (IH H)]; lia.
Qed.

Record cfg_ok (c : cfg) : Prop := {
  ok_d : 0 < dmax c;
  ok_0 : ~ In 0 (c_hosts c);
  ok_io : forall i, In i (c_hosts c) -> dmax c <= c_io c i /\ c_io c i < 256 }.

Definition DD (c : cfg) (i : N) : N := delay c (c_io c i).

Definition wfr (c : cfg) (v : rcd) : Prop :=
  (n_name v = 0 /\ (n_io v = 0 \/ dmax c <= n_io v)) \/
  (In (n_name v) (c_hosts c) /\ n_io v = c_io c (n_name v)).

Definition opinv (c : cfg) (now clk i : N) (o : iop) : Prop :=
  i_t o <= now < i_t o + dmax c /\
  match i_w o with
  | Some w => i_re o <= i_t o < i_re o + dmax c /\ n_name w = i /\ wfr c w /\ n_ts w < clk
  | None => True
  end /\
  match i_eff o with
  | Some (te, v) => i_t o <= te <= now /\ wfr c v /\ n_ts v < clk /\
                    match i_w o with Some w => v = w | None => True end
  | None => True
  end.

Definition kinv (c : cfg) (now clk i : N) (h : hst) : Prop :=
  match h_k h with
  | KOff => h_op h = None
  | KDead => match h_op h with Some o => i_w o <> None | None => True end
  | K1 => exists o, h_op h = Some o /\ i_w o = None
  | KW l r oio u => h_op h = None /\ wfr c l /\ n_ts l < clk /\ oio = other_io c i l /\ r + delay c oio <= u
  | K2 l r oio => exists o, h_op h = Some o /\ i_w o = None /\
                    wfr c l /\ n_ts l < clk /\ oio = other_io c i l /\ r + delay c oio <= i_t o
  | K3 nl oio => n_name nl = i /\ n_ts nl <> 0 /\ dmax c <= oio /\
                 exists o, h_op h = Some o /\ i_w o = Some nl /\
                   match i_eff o with Some (te, v) => h_rec h = nl /\ h_lw h = te | None => True end
  | KS nl u => n_name nl = i /\ n_ts nl <> 0 /\ h_op h = None /\ h_rec h = nl /\ h_lw h + 2 * dmax c <= u
  | K4 nl => n_name nl = i /\ n_ts nl <> 0 /\ h_rec h = nl /\
             exists o, h_op h = Some o /\ i_w o = None /\ h_lw h + 2 * dmax c <= i_t o
  | KOwn l ok => h_op h = None /\ n_name l = i /\ (ok = true -> l = h_rec h)
  | KR l ok => n_name l = i /\ (ok = true -> l = h_rec h) /\ exists o, h_op h = Some o /\ i_w o = None
  | KRW nl l => n_name l = i /\ n_name nl = i /\ n_ts nl <> 0 /\
                exists o, h_op h = Some o /\ i_w o = Some nl /\
                  match i_eff o with Some _ => h_rec h = nl | None => True end
  | KRel => exists o, h_op h = Some o /\ i_w o <> None
  end.

Record linv (c : cfg) (now clk i : N) (h : hst) : Prop := {
  l_op : forall o, h_op h = Some o -> opinv c now clk i o;
  l_k : kinv c now clk i h;
  l_lw : h_lw h <= now;
  l_rel : forall w re, pend h = Some (w, re) -> n_ts w = 0 -> h_alive h = false }.

Definition Ufree (t : N) (h : hst) : Prop :=
  (forall te v, effr h = Some (te, v) -> n_ts v <> t) /\
  (forall l r o, l1of h = Some (l, r, o) -> n_ts l <> t) /\
  (forall w re, pend h = Some (w, re) -> n_ts w <> t).

(* what an observer with state h may do to the record nl written at lw *)
Definition Pj (D lw : N) (nl : rcd) (h : hst) : Prop :=
  (forall w re, pend h = Some (w, re) -> re <= lw \/ (lw + D <= re /\ n_gen nl < n_gen w)) /\
  (forall te v, effr h = Some (te, v) ->
     (te <= lw /\ v <> nl) \/
     (lw <= te /\ v = nl /\ forall r o, l1of h = Some (v, r, o) -> lw + D <= te)) /\
  (forall r o, l1of h = Some (nl, r, o) -> lw <= r).

Definition Hj (i : N) (disk : rcd) (lw : N) (h : hst) : Prop :=
  pend h = None /\
  (forall te v, effr h = Some (te, v) ->
     n_name v = i /\ n_ts v <> 0 /\ (forall r o, l1of h <> Some (v, r, o)) /\ (v = disk -> lw <= te)) /\
  (forall r o, l1of h = Some (disk, r, o) -> lw <= r).

Definition above (succ : list (N * N)) (g : N) : Prop := forall x g', In (x, g') succ -> g' <= g.
Definition sabove (succ : list (N * N)) (g : N) : Prop := forall x g', In (x, g') succ -> g' < g.

(* generation parts that concern one host *)
Definition Mj (succ : list (N * N)) (h : hst) : Prop :=
  (forall w re, pend h = Some (w, re) -> above succ (n_gen w)) /\
  (forall nl oio, h_k h = K3 nl oio -> pend h <> None -> sabove succ (n_gen nl)) /\
  (forall te v, effr h = Some (te, v) -> above succ (n_gen v)).

Inductive gsorted : list (N * N) -> Prop :=
| gs_nil : gsorted []
| gs_cons i g l : sabove l g -> gsorted l -> gsorted ((i, g) :: l).

Record inv (c : cfg) (s : dst) : Prop := {
  I_loc : forall i, In i (c_hosts c) -> linv c (d_now s) (d_clk s) i (d_h s i);
  I_disk : wfr c (d_disk s) /\ n_ts (d_disk s) < d_clk s;
  I_name : forall i, In i (c_hosts c) -> n_name (d_disk s) = i -> d_disk s = h_rec (d_h s i);
  I_U1 : forall i w re, In i (c_hosts c) -> pend (d_h s i) = Some (w, re) -> n_ts w <> 0 ->
         n_ts (d_disk s) <> n_ts w;
  I_U2 : forall i j w re, In i (c_hosts c) -> In j (c_hosts c) -> i <> j ->
         pend (d_h s i) = Some (w, re) -> n_ts w <> 0 -> Ufree (n_ts w) (d_h s j);
  I_P : forall i j nl, In i (c_hosts c) -> In j (c_hosts c) -> i <> j ->
        post (d_h s i) = Some nl -> d_disk s = nl -> Pj (DD c i) (h_lw (d_h s i)) nl (d_h s j);
  I_Pm : forall i nl, In i (c_hosts c) -> post (d_h s i) = Some nl -> d_disk s = nl ->
         sabove (d_succ s) (n_gen nl);
  I_H1 : forall i, In i (c_hosts c) -> h_alive (d_h s i) = true ->
         n_name (d_disk s) = i /\ n_ts (d_disk s) <> 0 /\ d_now s < h_lw (d_h s i) + DD c i;
  I_H2 : forall i j, In i (c_hosts c) -> In j (c_hosts c) -> i <> j ->
         h_alive (d_h s i) = true -> Hj i (d_disk s) (h_lw (d_h s i)) (d_h s j);
  I_M1 : above (d_succ s) (n_gen (d_disk s));
  I_M2 : forall i, In i (c_hosts c) -> Mj (d_succ s) (d_h s i);
  I_M3 : gsorted (d_succ s) }.

Lemma upd_same f i h : upd f i h i = h.
Proof. unfold upd. rewrite N.eqb_refl. auto. Qed.
Lemma upd_other f i h j : j <> i -> upd f i h j = f j.
Proof. unfold upd. intros H. destruct (j =? i) eqn:E; auto. apply N.eqb_eq in E. congruence. Qed.

Lemma opinv_clk c now clk clk' i o : clk <= clk' -> opinv c now clk i o -> opinv c now clk' i o.
Proof.
  unfold opinv. intros L (A & B & C). split; [exact A|]. split.
  - destruct (i_w o); auto. intuition lia.
  - destruct (i_eff o) as [[te v]|]; auto. intuition lia.
Qed.

Lemma kinv_clk c now clk clk' i h : clk <= clk' -> kinv c now clk i h -> kinv c now clk' i h.
Proof.
  unfold kinv. intros L. destruct (h_k h); auto.
  - intuition lia.
  - intros (o & A & B & C & D & E). exists o. intuition lia.
Qed.

Lemma linv_clk c now clk clk' i h : clk <= clk' -> linv c now clk i h -> linv c now clk' i h.
Proof.
  intros L [A B C D]. constructor; auto.
  - intros o E. eapply opinv_clk; eauto.
  - eapply kinv_clk; eauto.
Qed.

(* The state of host i changes, the disk does not. *)
Lemma inv_put c s i h' clk' :
  inv c s -> In i (c_hosts c) -> d_clk s <= clk' ->
  let h := d_h s i in
  let s' := mkDst (d_now s) clk' (d_disk s) (upd (d_h s) i h') (d_succ s) in
  h_rec h' = h_rec h -> h_lw h' = h_lw h -> (h_alive h' = true -> h_alive h = true) ->
  linv c (d_now s) clk' i h' ->
  (forall w re, pend h' = Some (w, re) -> pend h = Some (w, re) \/ n_ts w = 0 \/ n_ts w = d_clk s) ->
  (forall te v, effr h' = Some (te, v) -> effr h = Some (te, v) \/ v = d_disk s) ->
  (forall l r o, l1of h' = Some (l, r, o) -> l1of h = Some (l, r, o) \/ effr h = Some (r, l)) ->
  (forall nl, post h' = Some nl -> post h = Some nl) ->
  (forall j nl, In j (c_hosts c) -> j <> i -> post (d_h s j) = Some nl -> d_disk s = nl ->
     Pj (DD c j) (h_lw (d_h s j)) nl h -> Pj (DD c j) (h_lw (d_h s j)) nl h') ->
  (forall j, In j (c_hosts c) -> j <> i -> h_alive (d_h s j) = true ->
     Hj j (d_disk s) (h_lw (d_h s j)) h -> Hj j (d_disk s) (h_lw (d_h s j)) h') ->
  Mj (d_succ s) h' ->
  inv c s'.
Proof.
  intros I Ii Lc h s' Er El Ea Li Fp Fe Fl Fo FP FH FM.
  assert (Hi : d_h s' i = h') by apply upd_same.
  assert (Ho : forall j, j <> i -> d_h s' j = d_h s j) by (intros; apply upd_other; auto).
  destruct (I_disk _ _ I) as [Id1 Id2].
  assert (Tts : forall j w re, In j (c_hosts c) -> pend (d_h s j) = Some (w, re) -> n_ts w < d_clk s).
  { intros j w re Ij P. pose proof (I_loc _ _ I j Ij) as [Lo _ _ _].
    unfold pend in P. destruct (h_op (d_h s j)) as [[t [w'|] re' [e|]]|] eqn:E; try discriminate P.
    injection P as -> ->. destruct (Lo _ eq_refl) as (_ & (_ & _ & _ & Q) & _). exact Q. }
  assert (Uh : forall j w re, In j (c_hosts c) -> j <> i -> pend (d_h s j) = Some (w, re) -> n_ts w <> 0 ->
               Ufree (n_ts w) h').
  { intros j w re Ij Nj P Nz. destruct (I_U2 _ _ I j i w re Ij Ii Nj P Nz) as (U1 & U2 & U3).
    fold h in U1, U2, U3. pose proof (I_U1 _ _ I j w re Ij P Nz) as UD. pose proof (Tts _ _ _ Ij P) as T.
    split; [|split].
    - intros te v E. destruct (Fe _ _ E) as [E'| ->]; [eauto|auto].
    - intros l r o E. destruct (Fl _ _ _ E) as [E'|E']; eauto.
    - intros w' re' E. destruct (Fp _ _ E) as [E'|[Z|Z]]; [eauto|lia|lia]. }
  assert (Ui : forall w re j, In j (c_hosts c) -> j <> i -> pend h' = Some (w, re) -> n_ts w <> 0 ->
               Ufree (n_ts w) (d_h s j)).
  { intros w re j Ij Nj P Nz. destruct (Fp _ _ P) as [E|[Z|Z]].
    - eapply (I_U2 _ _ I i j); eauto.
    - congruence.
    - rewrite Z. pose proof (I_loc _ _ I j Ij) as [Lo Lk _ _]. split; [|split].
      + intros te v E. unfold effr in E.
        destruct (h_op (d_h s j)) as [[t [w'|] re' [e|]]|] eqn:Eo; try discriminate E.
        injection E as ->. destruct (Lo _ eq_refl) as (_ & _ & (_ & _ & Q & _)). lia.
      + intros l r o E. unfold l1of in E. unfold kinv in Lk.
        destruct (h_k (d_h s j)); try discriminate E; injection E as -> -> ->.
        * destruct Lk as (_ & _ & Q & _). lia.
        * destruct Lk as (o' & _ & _ & _ & Q & _). lia.
      + intros w' re' E. specialize (Tts _ _ _ Ij E). lia. }
  constructor.
  - intros j Ij. cbn [d_now d_clk s']. destruct (N.eq_dec j i) as [->|Nj].
    + rewrite Hi. exact Li.
    + rewrite Ho by auto. eapply linv_clk; [|eapply (I_loc _ _ I); eauto]. exact Lc.
  - cbn. split; auto. lia.
  - intros j Ij E. cbn [d_disk s'] in *. destruct (N.eq_dec j i) as [->|Nj].
    + rewrite Hi, Er. apply (I_name _ _ I); auto.
    + rewrite Ho by auto. apply (I_name _ _ I); auto.
  - intros j w re Ij P Nz. cbn [d_disk s']. destruct (N.eq_dec j i) as [->|Nj].
    + rewrite Hi in P. destruct (Fp _ _ P) as [E|[Z|Z]]; [|congruence|].
      * exact (I_U1 _ _ I i w re Ii E Nz).
      * lia.
    + rewrite Ho in P by auto. exact (I_U1 _ _ I j w re Ij P Nz).
  - intros j k w re Ij Ik Njk P Nz. destruct (N.eq_dec j i) as [->|Nj].
    + rewrite Hi in P. rewrite Ho by auto. exact (Ui w re k Ik (not_eq_sym Njk) P Nz).
    + rewrite Ho in P by auto. destruct (N.eq_dec k i) as [->|Nk].
      * rewrite Hi. exact (Uh j w re Ij Nj P Nz).
      * rewrite Ho by auto. exact (I_U2 _ _ I j k w re Ij Ik Njk P Nz).
  - intros j k nl Ij Ik Njk P E. cbn [d_disk s'] in E. destruct (N.eq_dec j i) as [->|Nj].
    + rewrite Hi in *. rewrite Ho by auto. rewrite El. eapply (I_P _ _ I i k); eauto.
    + rewrite (Ho j) in * by auto. destruct (N.eq_dec k i) as [->|Nk].
      * rewrite Hi. apply FP; auto. eapply (I_P _ _ I j i); eauto.
      * rewrite Ho by auto. eapply (I_P _ _ I j k); eauto.
  - intros j nl Ij P E. cbn [d_disk d_succ s'] in *. destruct (N.eq_dec j i) as [->|Nj].
    + rewrite Hi in P. eapply (I_Pm _ _ I); eauto.
    + rewrite Ho in P by auto. eapply (I_Pm _ _ I); eauto.
  - intros j Ij A. cbn [d_disk d_now s']. destruct (N.eq_dec j i) as [->|Nj].
    + rewrite Hi in *. rewrite El. apply (I_H1 _ _ I); auto.
    + rewrite Ho in * by auto. apply (I_H1 _ _ I); auto.
  - intros j k Ij Ik Njk A. cbn [d_disk s']. destruct (N.eq_dec j i) as [->|Nj].
    + rewrite Hi in *. rewrite Ho by auto. rewrite El. apply (I_H2 _ _ I i k); auto.
    + rewrite (Ho j) in * by auto. destruct (N.eq_dec k i) as [->|Nk].
      * rewrite Hi. apply FH; auto. apply (I_H2 _ _ I j i); auto.
      * rewrite Ho by auto. apply (I_H2 _ _ I j k); auto.
  - exact (I_M1 _ _ I).
  - intros j Ij. cbn [d_succ s']. destruct (N.eq_dec j i) as [->|Nj].
    + rewrite Hi. exact FM.
    + rewrite Ho by auto. apply (I_M2 _ _ I); auto.
  - exact (I_M3 _ _ I).
Qed.

Lemma other_io_ge c i v : cfg_ok c -> In i (c_hosts c) -> wfr c v -> dmax c <= other_io c i v.
Proof.
  intros O Ii W. unfold other_io. destruct (n_io v =? 0) eqn:E.
  - apply (ok_io _ O); auto.
  - destruct W as [[_ [Z|Z]]|[Q ->]]; [lia|auto|]. apply (ok_io _ O); auto.
Qed.

Lemma other_io_host c i j v : cfg_ok c -> In j (c_hosts c) -> wfr c v -> n_name v = j ->
  other_io c i v = c_io c j.
Proof.
  intros O Ij W <-. destruct W as [[Z _]|[_ E]].
  - exfalso. apply (ok_0 _ O). rewrite <- Z. auto.
  - unfold other_io. destruct (n_io v =? 0) eqn:F; auto.
    pose proof (ok_io _ O _ Ij). pose proof (ok_d _ O). lia.
Qed.

Lemma DD_pos c i : cfg_ok c -> In i (c_hosts c) -> 0 < DD c i.
Proof.
  intros O Ii. unfold DD. rewrite delay_eq. pose proof (ok_io _ O _ Ii). pose proof (ok_d _ O). lia.
Qed.

(* facts about a host that waits to check its record *)
Lemma post_facts c now clk i h nl : linv c now clk i h -> post h = Some nl ->
  n_name nl = i /\ n_ts nl <> 0 /\ h_rec h = nl.
Proof.
  intros [Lo Lk _ _] P. unfold post in P. unfold kinv in Lk.
  destruct (h_k h); try discriminate P.
  - destruct Lk as (A & B & _ & o & E & _ & C). rewrite E in P. destruct o as [t w re [e|]]; [|discriminate P].
    injection P as <-. cbn in C. destruct e. intuition.
  - injection P as <-. intuition.
  - destruct Lk as (A & B & C & _). destruct (h_op h) as [[t w re [e|]]|]; try discriminate P. injection P as <-. auto.
Qed.

Lemma land255 x : x < 256 -> N.land x 255 = x.
Proof.
  intros L. change 255 with (N.ones 8). rewrite N.land_ones. apply N.mod_small. exact L.
Qed.

Lemma tick_inv c s s' : cfg_ok c -> inv c s -> estep c s ETick = Some s' -> inv c s'.
Proof.
  intros O I E. unfold estep in E. cbv zeta in E.
  destruct (forallb _ _) eqn:F; [|discriminate E]. injection E as <-. rewrite forallb_forall in F.
  assert (X1 : forall h a, pend (mkHst (h_k h) (h_op h) (h_held h) a (h_lw h) (h_rec h)) = pend h) by reflexivity.
  assert (X2 : forall h a, effr (mkHst (h_k h) (h_op h) (h_held h) a (h_lw h) (h_rec h)) = effr h) by reflexivity.
  assert (X3 : forall h a, l1of (mkHst (h_k h) (h_op h) (h_held h) a (h_lw h) (h_rec h)) = l1of h) by reflexivity.
  assert (X4 : forall h a, post (mkHst (h_k h) (h_op h) (h_held h) a (h_lw h) (h_rec h)) = post h) by reflexivity.
  constructor; cbn [d_now d_clk d_disk d_h d_succ].
  - intros i Ii. specialize (F i Ii). destruct (I_loc _ _ I i Ii) as [Lo Lk Ll Lr].
    constructor; cbn [h_op h_lw h_alive].
    + pose proof (dmax_ge c i Ii). intros o Eo. unfold in_time in F. rewrite Eo in F. specialize (Lo _ Eo).
      unfold opinv in *. destruct Lo as (A & B & C). split; [lia|]. split; auto.
      destruct (i_eff o) as [[te v]|]; auto. intuition lia.
    + unfold kinv in *. cbn [h_k h_op h_rec h_lw]. exact Lk.
    + lia.
    + intros w re P Z. rewrite X1 in P. rewrite (Lr _ _ P Z). auto.
  - exact (I_disk _ _ I).
  - intros i Ii N0. cbn [h_rec]. apply (I_name _ _ I); auto.
  - intros i w re Ii P. rewrite X1 in P. eapply (I_U1 _ _ I i); eauto.
  - intros i j w re Ii Ij Nij P Nz. rewrite X1 in P. exact (I_U2 _ _ I i j w re Ii Ij Nij P Nz).
  - intros i j nl Ii Ij Nij P Ed. rewrite X4 in P. exact (I_P _ _ I i j nl Ii Ij Nij P Ed).
  - intros i nl Ii P Ed. rewrite X4 in P. exact (I_Pm _ _ I i nl Ii P Ed).
  - intros i Ii A. cbn [h_alive h_lw] in *. rewrite andb_true_iff in A. destruct A as [A B].
    destruct (I_H1 _ _ I i Ii A) as (C & D & G). unfold DD. split; [auto|split; [auto|lia]].
  - intros i j Ii Ij Nij A. cbn [h_alive h_lw] in *. rewrite andb_true_iff in A. destruct A as [A B].
    exact (I_H2 _ _ I i j Ii Ij Nij A).
  - exact (I_M1 _ _ I).
  - intros i Ii. exact (I_M2 _ _ I i Ii).
  - exact (I_M3 _ _ I).
Qed.

Lemma inv_disk_host c s j : cfg_ok c -> inv c s -> In j (c_hosts c) -> n_name (d_disk s) = j ->
  forall i, other_io c i (d_disk s) = c_io c j.
Proof. intros O I Ij E i. apply other_io_host; auto. apply (I_disk _ _ I). Qed.

(* a read that is not a successful check takes effect *)
Lemma eff_read_inv c s i t re : cfg_ok c -> inv c s -> In i (c_hosts c) ->
  h_op (d_h s i) = Some (mkIop t None re None) ->
  inv c (put_host s i (set_k (d_h s i) (h_k (d_h s i)) (Some (mkIop t None re (Some (d_now s, d_disk s)))))).
Proof.
  intros O I Ii Eo. set (h := d_h s i) in *. set (h' := set_k h _ _).
  pose proof (I_loc _ _ I i Ii) as [Lo Lk Ll Lr]. fold h in Lo, Lk, Ll, Lr.
  destruct (I_disk _ _ I) as [Dw Dt].
  pose proof (Lo _ Eo) as (Ot & _ & _). cbn in Ot.
  assert (K2f : forall l r o, l1of h = Some (l, r, o) -> wfr c l /\ o = other_io c i l /\ r + delay c o <= t).
  { intros l r o E. unfold l1of in E. unfold kinv in Lk.
    destruct (h_k h); try discriminate E; injection E as -> -> ->.
    - destruct Lk as (A & _). congruence.
    - destruct Lk as (o' & A & _ & B & _ & C & D). rewrite Eo in A. injection A as <-. auto. }
  unfold put_host. apply inv_put; auto; try reflexivity.
  - constructor; cbn [h' set_k h_op h_lw h_alive].
    + intros o E. injection E as <-. unfold opinv. cbn. intuition lia.
    + unfold kinv in *. cbn [h' set_k h_op h_k h_rec h_lw]. rewrite Eo in Lk.
      destruct (h_k h); cbn in Lk |- *; try congruence; try tauto.
      * eauto.
      * destruct Lk as (Q & _); discriminate Q.
      * destruct Lk as (o & Q & A). injection Q as <-. eexists; split; [reflexivity|]. exact A.
      * destruct Lk as (_ & _ & _ & o & Q & A & _). injection Q as <-. discriminate A.
      * destruct Lk as (_ & _ & Q & _). discriminate Q.
      * destruct Lk as (A & B & C & o & Q & D). injection Q as <-. split; [auto|]. split; [auto|]. split; [auto|].
        eexists; split; [reflexivity|]. exact D.
      * destruct Lk as (Q & _). discriminate Q.
      * destruct Lk as (A & B & o & Q & D). split; [auto|]. split; [auto|]. eauto.
      * destruct Lk as (_ & _ & _ & o & Q & A & _). injection Q as <-. discriminate A.
      * destruct Lk as (o & Q & A). injection Q as <-. cbn in A. congruence.
    + exact Ll.
    + intros w r0 P. discriminate P.
  - intros w r0 P. discriminate P.
  - intros te v E. cbn in E. injection E as <- <-. auto.
  - intros nl P. unfold post in *. cbn [h' set_k h_k h_op] in P. fold h. rewrite Eo.
    unfold kinv in Lk. rewrite Eo in Lk.
    destruct (h_k h); try discriminate P; auto.
    destruct Lk as (_ & _ & _ & o & Q & A & _). injection Q as <-. discriminate A.
  - intros j nl Ij Nj Pj' Ed (P1 & P2 & P3). fold h in P1, P2, P3.
    destruct (post_facts _ _ _ _ _ _ (I_loc _ _ I j Ij) Pj') as (Nn & _).
    split; [|split].
    + intros w r0 P. discriminate P.
    + intros te v E. cbn in E. injection E as <- <-. right.
      pose proof (l_lw _ _ _ _ _ (I_loc _ _ I j Ij)) as Lj.
      split; [exact Lj|]. split; [exact Ed|].
      intros r o E. assert (E' : l1of h = Some (d_disk s, r, o)) by exact E.
      destruct (K2f _ _ _ E') as (_ & Eo' & T). rewrite Ed in E'. specialize (P3 _ _ E').
      rewrite Eo' in T. rewrite (inv_disk_host c s j O I Ij) in T by congruence. unfold DD. lia.
    + intros r o E. exact (P3 _ _ E).
  - intros j Ij Nj Aj (P1 & P2 & P3). fold h in P1, P2, P3.
    destruct (I_H1 _ _ I j Ij Aj) as (Hn & Hz & Ht).
    split; [reflexivity|]. split.
    + intros te v E. cbn in E. injection E as <- <-. split; [auto|]. split; [auto|]. split.
      * intros r o E. assert (E' : l1of h = Some (d_disk s, r, o)) by exact E.
        destruct (K2f _ _ _ E') as (_ & Eo' & T). specialize (P3 _ _ E').
        rewrite Eo' in T. rewrite (inv_disk_host c s j O I Ij) in T by congruence. unfold DD in Ht. lia.
      * intros _. apply (l_lw _ _ _ _ _ (I_loc _ _ I j Ij)).
    + intros r o E. exact (P3 _ _ E).
  - split; [|split].
    + intros w r0 P. discriminate P.
    + intros nl oio K P. exfalso. apply P. reflexivity.
    + intros te v E. cbn in E. injection E as <- <-. apply (I_M1 _ _ I).
Qed.

(* a write takes effect *)
Lemma eff_write_inv c s i t w re : cfg_ok c -> inv c s -> In i (c_hosts c) ->
  h_op (d_h s i) = Some (mkIop t (Some w) re None) ->
  inv c (mkDst (d_now s) (d_clk s) w
           (upd (d_h s) i (mkHst (h_k (d_h s i)) (Some (mkIop t (Some w) re (Some (d_now s, w))))
                                 (h_held (d_h s i)) (h_alive (d_h s i)) (d_now s) w)) (d_succ s)).
Proof.
  intros O I Ii Eo. set (h := d_h s i) in *. set (h' := mkHst _ _ _ _ _ _).
  set (s' := mkDst _ _ _ _ _).
  pose proof (I_loc _ _ I i Ii) as [Lo Lk Ll Lr]. fold h in Lo, Lk, Ll, Lr.
  pose proof (Lo _ Eo) as (Ot & (Or & On & Ow & Oc) & _). cbn in Ot, Or, On, Ow, Oc.
  assert (Pi : pend h = Some (w, re)) by (unfold pend; rewrite Eo; auto).
  assert (Hi : d_h s' i = h') by apply upd_same.
  assert (Ho : forall j, j <> i -> d_h s' j = d_h s j) by (intros; apply upd_other; auto).
  assert (Pn : pend h' = None) by reflexivity.
  assert (En : effr h' = None) by reflexivity.
  assert (Kn : l1of h' = None).
  { unfold l1of. cbn. unfold kinv in Lk. destruct (h_k h); auto.
    - destruct Lk as (Q & _). congruence.
    - destruct Lk as (o & Q & A & _). rewrite Eo in Q. injection Q as <-. discriminate A. }
  assert (Ljn : forall j, In j (c_hosts c) -> j <> i -> h_alive (d_h s j) = true -> False).
  { intros j Ij Nj A. destruct (I_H2 _ _ I j i Ij Ii Nj A) as (Q & _). fold h in Q. congruence. }
  assert (Lpost : forall j nl, In j (c_hosts c) -> post (d_h s' j) = Some nl -> w = nl -> j = i).
  { intros j nl Ij P <-. destruct (N.eq_dec j i) as [|Nj]; auto. exfalso. rewrite Ho in P by auto.
    destruct (post_facts _ _ _ _ _ _ (I_loc _ _ I j Ij) P) as (Nn & _). congruence. }
  constructor.
  - intros j Ij. cbn [d_now d_clk s']. destruct (N.eq_dec j i) as [->|Nj].
    2: { rewrite Ho by auto. apply (I_loc _ _ I); auto. }
    rewrite Hi. constructor.
    + intros o E. injection E as <-. unfold opinv. cbn. intuition lia.
    + unfold kinv in *. cbn [h' h_op h_k h_rec h_lw]. rewrite Eo in Lk.
      destruct (h_k h); cbn in Lk |- *; try congruence; try tauto.
      * destruct Lk as (o & Q & A). injection Q as <-. discriminate A.
      * destruct Lk as (Q & _); discriminate Q.
      * destruct Lk as (o & Q & A & _). injection Q as <-. discriminate A.
      * destruct Lk as (A & B & C & o & Q & D & _). injection Q as <-. cbn in D. injection D as <-.
        split; [auto|]. split; [auto|]. split; [auto|]. eexists; split; [reflexivity|]. cbn. auto.
      * destruct Lk as (_ & _ & Q & _). discriminate Q.
      * destruct Lk as (_ & _ & _ & o & Q & D & _). injection Q as <-. discriminate D.
      * destruct Lk as (Q & _). discriminate Q.
      * destruct Lk as (A & B & o & Q & D). injection Q as <-. discriminate D.
      * destruct Lk as (A & B & C & o & Q & D & _). injection Q as <-. cbn in D. injection D as <-.
        split; [auto|]. split; [auto|]. split; [auto|]. eexists; split; [reflexivity|]. cbn. auto.
      * eexists; split; [reflexivity|]. discriminate.
    + cbn. lia.
    + intros w' r0 P. rewrite Pn in P. discriminate P.
  - split; auto.
  - intros j Ij E. cbn [d_disk s'] in *. assert (j = i) as -> by congruence. rewrite Hi. auto.
  - intros j w' re' Ij P Nz. cbn [d_disk s']. destruct (N.eq_dec j i) as [->|Nj].
    { rewrite Hi in P. rewrite Pn in P. discriminate P. }
    rewrite Ho in P by auto. destruct (I_U2 _ _ I j i w' re' Ij Ii Nj P Nz) as (_ & _ & U). exact (U _ _ Pi).
  - intros j k w' re' Ij Ik Njk P Nz. destruct (N.eq_dec j i) as [->|Nj].
    { rewrite Hi in P. rewrite Pn in P. discriminate P. }
    rewrite Ho in P by auto. destruct (N.eq_dec k i) as [->|Nk].
    + rewrite Hi. split; [|split]; [rewrite En|rewrite Kn|rewrite Pn]; discriminate.
    + rewrite Ho by auto. exact (I_U2 _ _ I j k w' re' Ij Ik Njk P Nz).
  - intros j k nl Ij Ik Njk P E. cbn [d_disk s'] in E. pose proof (Lpost _ _ Ij P E). subst j nl.
    rewrite Hi in P |- *. rewrite Ho by auto. cbn [h' h_lw].
    assert (Wz : n_ts w <> 0).
    { unfold post in P. cbn [h' h_k h_op] in P. unfold kinv in Lk. rewrite Eo in Lk.
      destruct (h_k h); try discriminate P.
      - injection P as ->. destruct Lk as (_ & Q & _). auto.
      - destruct Lk as (_ & _ & Q & _). discriminate Q. }
    destruct (I_U2 _ _ I i k w re Ii Ik Njk Pi Wz) as (U1 & U2 & U3).
    pose proof (I_loc _ _ I k Ik) as [Ko _ _ _].
    split; [|split].
    + intros w' re' Q. left. unfold pend in Q.
      destruct (h_op (d_h s k)) as [[t' [w''|] re'' [e|]]|] eqn:E; try discriminate Q. injection Q as -> ->.
      destruct (Ko _ eq_refl) as (A & (B & _) & _). cbn in A, B. lia.
    + intros te v Q. left. split.
      * unfold effr in Q.
        destruct (h_op (d_h s k)) as [[t' [w''|] re'' [e|]]|] eqn:E; try discriminate Q. injection Q as ->.
        destruct (Ko _ eq_refl) as (_ & _ & A). cbn in A. lia.
      * intros ->. exact (U1 _ _ Q eq_refl).
    + intros r o Q. exfalso. exact (U2 _ _ _ Q eq_refl).
  - intros j nl Ij P E. cbn [d_disk s' d_succ] in *. pose proof (Lpost _ _ Ij P E). subst j nl.
    rewrite Hi in P. destruct (I_M2 _ _ I i Ii) as (_ & M & _). fold h in M.
    unfold post in P. cbn [h' h_k h_op] in P. unfold kinv in Lk. rewrite Eo in Lk.
    destruct (h_k h) eqn:Ek; try discriminate P.
    + injection P as ->. eapply M; eauto. congruence.
    + destruct Lk as (_ & _ & Q & _). discriminate Q.
  - intros j Ij A. cbn [d_disk d_now s']. destruct (N.eq_dec j i) as [->|Nj].
    2: { exfalso. rewrite Ho in A by auto. eauto. }
    rewrite Hi in A |- *. cbn [h' h_alive h_lw] in *. split; [auto|]. split.
    + intros Z. rewrite (Lr _ _ Pi Z) in A. discriminate A.
    + pose proof (DD_pos c i O Ii). lia.
  - intros j k Ij Ik Njk A. cbn [d_disk s']. destruct (N.eq_dec j i) as [->|Nj].
    2: { exfalso. rewrite Ho in A by auto. eauto. }
    rewrite Hi in A |- *. rewrite Ho by auto. cbn [h' h_alive h_lw] in *.
    assert (Wz : n_ts w <> 0) by (intros Z; rewrite (Lr _ _ Pi Z) in A; discriminate A).
    destruct (I_U2 _ _ I i k w re Ii Ik Njk Pi Wz) as (U1 & U2 & U3).
    destruct (I_H2 _ _ I i k Ii Ik Njk A) as (P1 & P2 & P3).
    split; [auto|]. split.
    + intros te v Q. destruct (P2 _ _ Q) as (B1 & B2 & B3 & B4). split; [auto|]. split; [auto|]. split; [auto|].
      intros ->. exfalso. exact (U1 _ _ Q eq_refl).
    + intros r o Q. exfalso. exact (U2 _ _ _ Q eq_refl).
  - cbn [d_succ d_disk s']. destruct (I_M2 _ _ I i Ii) as (M & _). exact (M _ _ Pi).
  - intros j Ij. cbn [d_succ s']. destruct (N.eq_dec j i) as [->|Nj].
    + rewrite Hi. split; [|split].
      * rewrite Pn. discriminate.
      * rewrite Pn. congruence.
      * rewrite En. discriminate.
    + rewrite Ho by auto. apply (I_M2 _ _ I); auto.
  - exact (I_M3 _ _ I).
Qed.

(* the check read of a join finds the own record *)
Lemma eff_check_inv c s i t re nl : cfg_ok c -> inv c s -> In i (c_hosts c) ->
  h_k (d_h s i) = K4 nl -> h_op (d_h s i) = Some (mkIop t None re None) -> nl = d_disk s ->
  inv c (mkDst (d_now s) (d_clk s) (d_disk s)
           (upd (d_h s) i (mkHst (h_k (d_h s i)) (Some (mkIop t None re (Some (d_now s, d_disk s)))) true
                                 (d_now s <? h_lw (d_h s i) + delay c (c_io c i))
                                 (h_lw (d_h s i)) (h_rec (d_h s i))))
           ((i, n_gen nl) :: d_succ s)).
Proof.
  intros O I Ii Ek Eo En. set (h := d_h s i) in *. set (h' := mkHst _ _ _ _ _ _).
  set (s' := mkDst _ _ _ _ _).
  pose proof (I_loc _ _ I i Ii) as [Lo Lk Ll Lr]. fold h in Lo, Lk, Ll, Lr.
  pose proof (Lo _ Eo) as (Ot & _ & _). cbn in Ot.
  destruct (I_disk _ _ I) as [Dw Dt].
  assert (Hi : d_h s' i = h') by apply upd_same.
  assert (Ho : forall j, j <> i -> d_h s' j = d_h s j) by (intros; apply upd_other; auto).
  assert (Pn : pend h' = None) by reflexivity.
  assert (Kn : l1of h' = None) by (unfold l1of; cbn; rewrite Ek; auto).
  assert (On : post h' = None) by (unfold post; cbn; rewrite Ek; auto).
  assert (Op : post h = Some nl) by (unfold post; rewrite Ek, Eo; auto).
  assert (L4 : n_name nl = i /\ n_ts nl <> 0 /\ h_rec h = nl /\ h_lw h + 2 * dmax c <= t).
  { unfold kinv in Lk. rewrite Ek in Lk. destruct Lk as (A & B & C & o & Q & _ & D).
    rewrite Eo in Q. injection Q as <-. auto. }
  destruct L4 as (Nn & Nt & Nr & Nw).
  pose proof (ok_d _ O) as Dp.
  (* others *)
  assert (Jp : forall j w r0, In j (c_hosts c) -> j <> i -> pend (d_h s j) = Some (w, r0) ->
               h_lw h + DD c i <= r0 /\ n_gen nl < n_gen w).
  { intros j w r0 Ij Nj P. destruct (I_P _ _ I i j nl Ii Ij (not_eq_sym Nj) Op (eq_sym En)) as (P1 & _).
    destruct (P1 _ _ P) as [Q|Q]; auto. exfalso.
    pose proof (l_op _ _ _ _ _ (I_loc _ _ I j Ij)) as Jo. unfold pend in P.
    destruct (h_op (d_h s j)) as [[t' [w'|] re' [e|]]|] eqn:E; try discriminate P. injection P as -> ->.
    destruct (Jo _ eq_refl) as (A & (B & _) & _). cbn in A, B. fold h in Q. lia. }
  assert (Je : forall j te v, In j (c_hosts c) -> j <> i -> effr (d_h s j) = Some (te, v) ->
               h_lw h <= te /\ v = nl /\ forall r o, l1of (d_h s j) = Some (v, r, o) -> h_lw h + DD c i <= te).
  { intros j te v Ij Nj P. destruct (I_P _ _ I i j nl Ii Ij (not_eq_sym Nj) Op (eq_sym En)) as (_ & P2 & _).
    destruct (P2 _ _ P) as [Q|Q]; auto. exfalso.
    pose proof (l_op _ _ _ _ _ (I_loc _ _ I j Ij)) as Jo. unfold effr in P.
    destruct (h_op (d_h s j)) as [[t' [w'|] re' [e|]]|] eqn:E; try discriminate P. injection P as ->.
    destruct (Jo _ eq_refl) as (A & _ & B). cbn in A, B. fold h in Q. lia. }
  assert (Ljn : forall j, In j (c_hosts c) -> j <> i -> h_alive (d_h s j) = true -> False).
  { intros j Ij Nj A. destruct (I_H1 _ _ I j Ij A) as (Q & _). congruence. }
  assert (Lpost : forall j nl', In j (c_hosts c) -> post (d_h s' j) = Some nl' -> d_disk s = nl' -> False).
  { intros j nl' Ij P E. destruct (N.eq_dec j i) as [->|Nj].
    - rewrite Hi in P. rewrite On in P. discriminate P.
    - rewrite Ho in P by auto. destruct (post_facts _ _ _ _ _ _ (I_loc _ _ I j Ij) P) as (Q & _). congruence. }
  constructor.
  - intros j Ij. cbn [d_now d_clk s']. destruct (N.eq_dec j i) as [->|Nj].
    2: { rewrite Ho by auto. apply (I_loc _ _ I); auto. }
    rewrite Hi. constructor.
    + intros o E. injection E as <-. unfold opinv. cbn. intuition lia.
    + unfold kinv. cbn [h' h_op h_k h_rec h_lw]. rewrite Ek. split; [auto|]. split; [auto|]. split; [auto|].
      eexists; split; [reflexivity|]. cbn. auto.
    + exact Ll.
    + intros w' r0 P. rewrite Pn in P. discriminate P.
  - auto.
  - intros j Ij E. cbn [d_disk s'] in *. destruct (N.eq_dec j i) as [->|Nj].
    + rewrite Hi. cbn. congruence.
    + rewrite Ho by auto. apply (I_name _ _ I); auto.
  - intros j w' re' Ij P Nz. cbn [d_disk s']. destruct (N.eq_dec j i) as [->|Nj].
    { rewrite Hi in P. rewrite Pn in P. discriminate P. }
    rewrite Ho in P by auto. exact (I_U1 _ _ I j w' re' Ij P Nz).
  - intros j k w' re' Ij Ik Njk P Nz. destruct (N.eq_dec j i) as [->|Nj].
    { rewrite Hi in P. rewrite Pn in P. discriminate P. }
    rewrite Ho in P by auto. destruct (N.eq_dec k i) as [->|Nk].
    + rewrite Hi. split; [|split].
      * intros te v E. cbn in E. injection E as <- <-. exact (I_U1 _ _ I j w' re' Ij P Nz).
      * rewrite Kn. discriminate.
      * rewrite Pn. discriminate.
    + rewrite Ho by auto. exact (I_U2 _ _ I j k w' re' Ij Ik Njk P Nz).
  - intros j k nl' Ij Ik Njk P E. exfalso. eauto.
  - intros j nl' Ij P E. exfalso. eauto.
  - intros j Ij A. cbn [d_disk d_now s']. destruct (N.eq_dec j i) as [->|Nj].
    2: { exfalso. rewrite Ho in A by auto. eauto. }
    rewrite Hi in A |- *. cbn [h' h_alive h_lw] in *. rewrite <- En. unfold DD. split; [auto|]. split; [auto|]. lia.
  - intros j k Ij Ik Njk A. cbn [d_disk s']. destruct (N.eq_dec j i) as [->|Nj].
    2: { exfalso. rewrite Ho in A by auto. eauto. }
    rewrite Hi in A |- *. rewrite Ho by auto. cbn [h' h_alive h_lw] in *.
    assert (Al : d_now s < h_lw h + DD c i) by (unfold DD; lia).
    destruct (I_P _ _ I i k nl Ii Ik Njk Op (eq_sym En)) as (_ & _ & P3). fold h in P3.
    assert (Kt : forall te v, effr (d_h s k) = Some (te, v) -> te <= d_now s).
    { intros te v P. pose proof (l_op _ _ _ _ _ (I_loc _ _ I k Ik)) as Jo. unfold effr in P.
      destruct (h_op (d_h s k)) as [[t' [w'|] re' [e|]]|] eqn:E; try discriminate P. injection P as ->.
      destruct (Jo _ eq_refl) as (_ & _ & B). cbn in B. lia. }
    split; [|split].
    + destruct (pend (d_h s k)) as [[w r0]|] eqn:E; auto. exfalso.
      destruct (Jp k w r0 Ik (not_eq_sym Njk) E) as (Q & _).
      pose proof (l_op _ _ _ _ _ (I_loc _ _ I k Ik)) as Jo. unfold pend in E.
      destruct (h_op (d_h s k)) as [[t' [w'|] re' [e|]]|] eqn:F; try discriminate E. injection E as -> ->.
      destruct (Jo _ eq_refl) as (A' & (B & _) & _). cbn in A', B. lia.
    + intros te v Q. destruct (Je k te v Ik (not_eq_sym Njk) Q) as (B1 & -> & B3). specialize (Kt _ _ Q).
      split; [auto|]. split; [auto|]. split; [|auto]. intros r o Q'. specialize (B3 _ _ Q'). lia.
    + rewrite <- En. exact P3.
  - cbn [d_succ d_disk s']. intros x g' [Q|Q].
    + injection Q as <- <-. rewrite En. lia.
    + exact (I_M1 _ _ I x g' Q).
  - intros j Ij. cbn [d_succ s']. destruct (N.eq_dec j i) as [->|Nj].
    + rewrite Hi. split; [|split].
      * rewrite Pn. discriminate.
      * rewrite Pn. congruence.
      * intros te v E. cbn in E. injection E as <- <-. intros x g' [Q|Q].
        -- injection Q as <- <-. rewrite En. lia.
        -- exact (I_M1 _ _ I x g' Q).
    + rewrite Ho by auto. destruct (I_M2 _ _ I j Ij) as (M1 & M2 & M3). split; [|split].
      * intros w r0 P x g' [Q|Q]; [|exact (M1 _ _ P x g' Q)]. injection Q as <- <-.
        destruct (Jp j w r0 Ij Nj P). lia.
      * intros nl' oio K P x g' [Q|Q]; [|exact (M2 _ _ K P x g' Q)]. injection Q as <- <-.
        destruct (pend (d_h s j)) as [[w r0]|] eqn:E; [|congruence].
        destruct (Jp j w r0 Ij Nj E) as (_ & G).
        pose proof (l_k _ _ _ _ _ (I_loc _ _ I j Ij)) as Lkj. unfold kinv in Lkj. rewrite K in Lkj.
        destruct Lkj as (_ & _ & _ & o & Q & W & _). unfold pend in E. rewrite Q in E.
        destruct o as [t' [w'|] re' [e|]]; try discriminate E. cbn in W. congruence.
      * intros te v P x g' [Q|Q]; [|exact (M3 _ _ P x g' Q)]. injection Q as <- <-.
        destruct (Je j te v Ij Nj P) as (_ & -> & _). lia.
  - cbn [d_succ s']. constructor; [|exact (I_M3 _ _ I)].
    exact (I_Pm _ _ I i nl Ii Op (eq_sym En)).
Qed.

Ltac nope := intros; discriminate.

(* changes that take away: nothing pending but an old write, no new observation *)
Lemma quiet_inv c s i h' : cfg_ok c -> inv c s -> In i (c_hosts c) ->
  h_rec h' = h_rec (d_h s i) -> h_lw h' = h_lw (d_h s i) ->
  (h_alive h' = true -> h_alive (d_h s i) = true) ->
  linv c (d_now s) (d_clk s) i h' ->
  (pend h' = None \/ (pend h' = pend (d_h s i) /\ forall nl o, h_k h' <> K3 nl o)) ->
  effr h' = None ->
  (l1of h' = None \/ l1of h' = l1of (d_h s i)) ->
  (forall nl, post h' = Some nl -> post (d_h s i) = Some nl) ->
  inv c (put_host s i h').
Proof.
  intros O I Ii Er El Ea Li Fp Fe Fl Fo. unfold put_host.
  assert (Xp : forall w re, pend h' = Some (w, re) -> pend (d_h s i) = Some (w, re)).
  { intros w re P. destruct Fp as [Q|[Q _]]; congruence. }
  assert (Xl : forall x, l1of h' = Some x -> l1of (d_h s i) = Some x).
  { intros x P. destruct Fl as [Q|Q]; congruence. }
  apply inv_put; auto; try (rewrite Fe; discriminate).
  - lia.
  - intros j nl Ij Nj P Ed (P1 & P2 & P3). split; [|split].
    + intros w re Q. eauto.
    + rewrite Fe. discriminate.
    + intros r o Q. eauto.
  - intros j Ij Nj A (P1 & P2 & P3). split; [|split].
    + destruct Fp as [Q|[Q _]]; congruence.
    + rewrite Fe. discriminate.
    + intros r o Q. eauto.
  - destruct (I_M2 _ _ I i Ii) as (M1 & M2 & M3). split; [|split].
    + intros w re Q. eauto.
    + intros nl oio K P. destruct Fp as [Q|[Q N]]; [congruence|]. exfalso. exact (N _ _ K).
    + rewrite Fe. discriminate.
Qed.

Lemma rd_opinv c now clk i : 0 < dmax c -> opinv c now clk i (mkIop now None 0 None).
Proof. intros D. unfold opinv. cbn. intuition lia. Qed.

(* a new write is issued on the evidence of an effective read, or by the holder *)
Lemma issue_inv c s i k te v w clk' : cfg_ok c -> inv c s -> In i (c_hosts c) ->
  d_clk s <= clk' ->
  effr (d_h s i) = Some (te, v) ->
  linv c (d_now s) clk' i (set_k (d_h s i) k (wr (d_now s) te w)) ->
  n_ts w = d_clk s ->
  (match k with K3 nl _ => nl = w | KRW nl _ => nl = w | _ => False end) ->
  (match k with K3 _ _ => n_gen v < n_gen w | _ => n_gen v <= n_gen w end) ->
  (* the decision *)
  (n_ts v = 0 \/ n_name v = i \/ exists r o, l1of (d_h s i) = Some (v, r, o)) ->
  (* a renewal is decided on an own record only *)
  (match k with KRW _ _ => n_name v = i | _ => True end) ->
  inv c (mkDst (d_now s) clk' (d_disk s) (upd (d_h s) i (set_k (d_h s i) k (wr (d_now s) te w))) (d_succ s)).
Proof.
  intros O I Ii Lc Ef Li Ts Kk Gw Dc Ck. set (h := d_h s i) in *. set (h' := set_k h _ _).
  assert (Pw : pend h' = Some (w, te)) by reflexivity.
  assert (Ew : effr h' = None) by reflexivity.
  assert (Kw : l1of h' = None) by (unfold l1of; cbn; destruct k; auto; contradiction).
  assert (Ow : post h' = None) by (unfold post; cbn; destruct k; auto; contradiction).
  apply inv_put; auto.
  - intros w' re' P. rewrite Pw in P. injection P as <- <-. auto.
  - rewrite Ew. nope.
  - rewrite Kw. nope.
  - rewrite Ow. nope.
  - intros j nl Ij Nj P Ed (P1 & P2 & P3). fold h in P1, P2, P3. split; [|split].
    + intros w' re' Q. rewrite Pw in Q. injection Q as <- <-.
      destruct (P2 _ _ Ef) as [[A _]|(A & -> & B)]; [auto|]. right.
      destruct (post_facts _ _ _ _ _ _ (I_loc _ _ I j Ij) P) as (Nn & Nt & _).
      destruct Dc as [Z|[Z|(r & o & Z)]]; [congruence|congruence|]. split; [eauto|].
      destruct k; try contradiction; [exact Gw|congruence].
    + rewrite Ew. nope.
    + rewrite Kw. nope.
  - intros j Ij Nj A (P1 & P2 & P3). fold h in P1, P2, P3. exfalso.
    destruct (P2 _ _ Ef) as (Q1 & Q2 & Q3 & _).
    destruct Dc as [Z|[Z|(r & o & Z)]]; [congruence|congruence|]. exact (Q3 _ _ Z).
  - destruct (I_M2 _ _ I i Ii) as (M1 & M2 & M3). fold h in M1, M2, M3. specialize (M3 _ _ Ef).
    split; [|split].
    + intros w' re' P x g' Q. rewrite Pw in P. injection P as <- <-. specialize (M3 _ _ Q).
      destruct k; try contradiction; lia.
    + intros nl oio K P x g' Q. cbn in K. specialize (M3 _ _ Q). subst k. subst nl. lia.
    + rewrite Ew. nope.
Qed.

Lemma linv_none c now clk i h k : linv c now clk i h -> kinv c now clk i (set_k h k None) ->
  linv c now clk i (set_k h k None).
Proof. intros [Lo Lk Ll Lr] K. constructor; auto; nope. Qed.

Lemma clk_pos c s : inv c s -> 0 < d_clk s.
Proof. intros I. destruct (I_disk _ _ I). lia. Qed.

Lemma ret_inv c s s' i : cfg_ok c -> inv c s -> In i (c_hosts c) -> estep c s (ERet i) = Some s' -> inv c s'.
Proof.
  intros O I Ii E. unfold estep in E. cbv zeta in E. set (h := d_h s i) in *.
  pose proof (I_loc _ _ I i Ii) as Li. fold h in Li. pose proof Li as [Lo Lk Ll Lr].
  destruct (h_op h) as [[t w re [[te v]|]]|] eqn:Eo; try discriminate E. injection E as <-.
  pose proof (Lo _ eq_refl) as (Ot & Ow & (Oe & Ov & Oc & Oq)). cbn in Ot, Ow, Oe, Ov, Oc, Oq.
  pose proof (clk_pos _ _ I) as Cp. pose proof (ok_d _ O) as Dp.
  assert (Lw : forall k w, n_name w = i -> n_io w = c_io c i -> n_ts w = d_clk s ->
               kinv c (d_now s) (d_clk s + 1) i (set_k h k (wr (d_now s) te w)) ->
               linv c (d_now s) (d_clk s + 1) i (set_k h k (wr (d_now s) te w))).
  { intros k w' N1 N2 N3 K. constructor; auto.
    - intros o E. injection E as <-. unfold opinv. cbn. split; [lia|]. split; [|auto].
      split; [lia|]. split; [auto|]. split; [|lia]. right. rewrite N1, N2. auto.
    - intros w0 r0 P Z. cbn in P. injection P as <- <-. lia. }
  assert (Io : N.land (c_io c i) 255 = c_io c i) by (apply land255; apply (ok_io _ O); auto).
  assert (J : forall oio, dmax c <= oio -> effr h = Some (te, v) ->
     (n_ts v = 0 \/ n_name v = i \/ exists r o, l1of h = Some (v, r, o)) ->
     inv c (put_host_clk s i (set_k h (K3 (new_record c i (d_clk s) v) oio)
                                      (wr (d_now s) te (new_record c i (d_clk s) v))))).
  { intros oio Lx Ef Dc. unfold put_host_clk. apply (issue_inv c s i _ te v); auto; try lia.
    - apply Lw; auto. unfold kinv. cbn. split; [auto|]. split; [lia|]. split; [auto|].
      eexists; split; [reflexivity|]. cbn. auto.
    - cbn. lia. }
  unfold code. fold h. cbv zeta. unfold kinv in Lk.
  destruct (h_k h) as [| | |l1 r1 oio u|l1 r1 oio|nl oio|nl u|nl|l ok|l ok|nl l|] eqn:Ek.
  - congruence.
  - (* KDead *)
    apply quiet_inv; auto; try nope. apply linv_none; auto. unfold kinv. cbn. auto.
  - (* K1 *)
    destruct Lk as (o & Q & W). rewrite Eo in Q. injection Q as <-. cbn in W. subst w.
    assert (Ef : effr h = Some (te, v)) by (unfold effr; rewrite Eo; auto).
    pose proof (other_io_ge c i v O Ii Ov) as Og.
    match goal with |- inv c (if ?b then _ else _) => destruct b eqn:B end.
    + apply J; auto. destruct (n_ts v =? 0) eqn:Z; [left; lia|]. cbn in B. right; left. lia.
    + rewrite orb_false_iff in B. destruct B as [B1 B2].
      unfold put_host. apply inv_put; auto; try nope; try reflexivity.
      * apply linv_none; auto. unfold kinv. cbn. split; [auto|]. split; [auto|]. split; [auto|]. split; [auto|]. lia.
      * intros l r o Q. cbn in Q. injection Q as <- <- <-. right. exact Ef.
      * intros j nl Ij Nj P Ed (P1 & P2 & P3). split; [|split]; try nope.
        intros r o Q. cbn in Q. injection Q as -> <- <-. destruct (P2 _ _ Ef) as [[_ A]|(A & _)]; [congruence|auto].
      * intros j Ij Nj A (P1 & P2 & P3). split; [auto|]. split; [nope|].
        intros r o Q. cbn in Q. injection Q as -> <- <-. destruct (P2 _ _ Ef) as (_ & _ & _ & A'). auto.
      * split; [|split]; nope.
  - destruct Lk as (Q & _). congruence.
  - (* K2 *)
    destruct Lk as (o & Q & W & Wl & Tl & Eoi & Lr1). rewrite Eo in Q. injection Q as <-. cbn in W. subst w.
    assert (Ef : effr h = Some (te, v)) by (unfold effr; rewrite Eo; auto).
    match goal with |- inv c (if ?b then _ else _) => destruct b eqn:B end.
    + apply J; auto.
      * subst oio. apply other_io_ge; auto.
      * destruct (n_ts v =? 0) eqn:Z; [left; lia|]. right; right. rewrite orb_false_r in B.
        rewrite rcd_eqb_eq in B. subst l1. exists r1, oio. unfold l1of. rewrite Ek. auto.
    + apply quiet_inv; auto; try nope. apply linv_none; auto. reflexivity.
  - (* K3 *)
    destruct Lk as (A & B & C & o & Q & D & F). rewrite Eo in Q. injection Q as <-. cbn in D, F. destruct F as [F G].
    apply quiet_inv; auto; try nope.
    + apply linv_none; auto. unfold kinv. cbn [set_k h_k h_op h_rec h_lw]. split; [auto|]. split; [auto|].
      split; [auto|]. split; [auto|]. lia.
    + intros nl' P. cbn in P. fold h. unfold post. rewrite Ek, Eo. exact P.
  - destruct Lk as (_ & _ & Q & _). congruence.
  - (* K4 *)
    destruct Lk as (A & B & C & o & Q & D & F). rewrite Eo in Q. injection Q as <-. cbn in D. subst w.
    match goal with |- inv c (if ?b then _ else _) => destruct b eqn:Bq end.
    + apply quiet_inv; auto; try nope. apply linv_none; auto. unfold kinv. cbn. auto.
    + apply quiet_inv; auto; try nope. apply linv_none; auto. reflexivity.
  - destruct Lk as (Q & _). congruence.
  - (* KR *)
    destruct Lk as (A & B & o & Q & D). rewrite Eo in Q. injection Q as <-. cbn in D. subst w.
    assert (Ef : effr h = Some (te, v)) by (unfold effr; rewrite Eo; auto).
    match goal with |- inv c (if ?b then _ else _) => destruct b eqn:Bq end.
    + apply quiet_inv; auto; try nope. apply linv_none; auto. unfold kinv. cbn. split; [auto|]. split; [auto|]. discriminate.
    + rewrite orb_false_iff, negb_false_iff, andb_true_iff in Bq. destruct Bq as [[B1 B2] _].
      assert (Nv : n_name v = i) by lia.
      assert (Iov : n_io (renewed c i (d_clk s) v) = c_io c i).
      { unfold renewed. cbn. destruct (n_io v =? c_io c i) eqn:Z; [lia|auto]. }
      unfold put_host_clk. apply (issue_inv c s i _ te v); auto; try lia; try (cbn; lia).
      apply Lw; auto. unfold kinv. cbn. split; [auto|]. split; [auto|]. split; [lia|]. eexists; split; [reflexivity|]. cbn. auto.
  - (* KRW *)
    destruct Lk as (A & B & C & o & Q & D & F). rewrite Eo in Q. injection Q as <-. cbn in D, F.
    apply quiet_inv; auto; try nope. apply linv_none; auto. unfold kinv. cbn. auto.
  - apply quiet_inv; auto; try nope. apply linv_none; auto. reflexivity.
Qed.

Lemma linv_rd c s i h k : 0 < dmax c -> linv c (d_now s) (d_clk s) i h ->
  kinv c (d_now s) (d_clk s) i (set_k h k (rd (d_now s))) ->
  linv c (d_now s) (d_clk s) i (set_k h k (rd (d_now s))).
Proof.
  intros D [Lo Lk Ll Lr] K. constructor; auto; try nope.
  intros o E. injection E as <-. apply rd_opinv; auto.
Qed.

Theorem step_inv c s e s' : cfg_ok c -> inv c s -> ev_ok c e = true -> estep c s e = Some s' -> inv c s'.
Proof.
  intros O I Ok E. pose proof (ok_d _ O) as Dp.
  assert (Hh : forall i, ev_host e = Some i -> In i (c_hosts c)).
  { intros i Q. unfold ev_ok in Ok. rewrite Q in Ok. rewrite existsb_exists in Ok.
    destruct Ok as (x & A & B). rewrite N.eqb_eq in B. subst x. auto. }
  destruct e as [|i|i|i|i|i|i|i|i]; cbn in Hh; [eapply tick_inv; eauto|..];
    specialize (Hh _ eq_refl); rename Hh into Ii;
    pose proof (I_loc _ _ I i Ii) as Li; pose proof Li as [Lo Lk Ll Lr];
    try (eapply ret_inv; eauto; fail); unfold estep in E; cbv zeta in E; set (h := d_h s i) in *.
  - (* start *)
    assert (N0 : h_op h = None /\ s' = put_host s i (mkHst K1 (rd (d_now s)) false false (h_lw h) (h_rec h))).
    { destruct (h_k h); try discriminate E; destruct (h_op h); try discriminate E; injection E as <-; auto. }
    destruct N0 as [N0 ->]. apply quiet_inv; auto; try nope.
    constructor; auto; try nope.
    + intros o Q. injection Q as <-. apply rd_opinv; auto.
    + unfold kinv. cbn. eexists; split; reflexivity.
  - (* effect *)
    destruct (h_op h) as [[t [w|] re [e|]]|] eqn:Eo; try discriminate E.
    + injection E as <-. apply eff_write_inv; auto.
    + assert (Q : (exists nl, h_k h = K4 nl /\ rcd_eqb nl (d_disk s) = true) \/
                  s' = put_host s i (set_k h (h_k h) (Some (mkIop t None re (Some (d_now s, d_disk s)))))).
      { destruct (h_k h) eqn:Ek; try (injection E as <-; auto; fail).
        destruct (rcd_eqb nl (d_disk s)) eqn:B; [left; eauto|]. injection E as <-. auto. }
      destruct Q as [(nl & Ek & B)| ->].
      * rewrite Ek in E. rewrite B in E. injection E as <-. rewrite rcd_eqb_eq in B. rewrite <- Ek.
        eapply eff_check_inv; eauto.
      * apply eff_read_inv; auto.
  - (* error *)
    destruct (h_op h) eqn:Eo; [|discriminate E]. injection E as <-.
    apply quiet_inv; auto.
    + apply linv_none; auto. unfold kinv in *. rewrite Eo in Lk. destruct (h_k h); cbn; auto.
      * destruct Lk as (A & B & _). split; [auto|]. split; [auto|]. nope.
      * destruct Lk as (A & B & _). split; [auto|]. split; [auto|]. nope.
    + left. destruct (h_k h); auto.
    + intros nl P. destruct (h_k h); discriminate P.
  - (* wake *)
    unfold kinv in Lk.
    destruct (h_k h) eqn:Ek; try discriminate E; destruct (until <=? d_now s) eqn:B; try discriminate E; injection E as <-.
    + apply quiet_inv; auto; try nope.
      * apply linv_rd; auto. unfold kinv. cbn. eexists; split; [reflexivity|]. cbn.
        destruct Lk as (A1 & A2 & A3 & A4 & A5). split; [auto|]. split; [auto|]. split; [auto|]. split; [auto|]. lia.
      * right. unfold l1of. fold h. rewrite Ek. reflexivity.
    + apply quiet_inv; auto; try nope.
      * apply linv_rd; auto. unfold kinv. cbn [set_k h_k h_op h_rec h_lw]. destruct Lk as (A1 & A2 & A3 & A4 & A5).
        split; [auto|]. split; [auto|]. split; [auto|]. eexists; split; [reflexivity|]. cbn [i_w i_t]. split; [auto|lia].
      * intros nl' P. unfold post. fold h. rewrite Ek. exact P.
  - (* renew *)
    unfold kinv in Lk. destruct (h_k h) eqn:Ek; try discriminate E. injection E as <-.
    apply quiet_inv; auto; try nope. apply linv_rd; auto. unfold kinv. cbn. destruct Lk as (A1 & A2 & A3).
    split; [auto|]. split; [auto|]. eexists; split; reflexivity.
  - (* release *)
    unfold kinv in Lk. destruct (h_k h) eqn:Ek; try discriminate E. destruct ok; [|discriminate E].
    destruct (h_alive h) eqn:Al; [|discriminate E]. injection E as <-.
    destruct Lk as (A1 & A2 & A3). specialize (A3 eq_refl).
    destruct (I_H1 _ _ I i Ii Al) as (H1 & H2 & H3).
    assert (Dl : d_disk s = l) by (rewrite A3; apply (I_name _ _ I); auto).
    destruct (I_disk _ _ I) as [Dw Dt].
    unfold put_host. apply inv_put; auto; try nope; try reflexivity.
    + constructor; auto; try nope.
      * intros o Q. injection Q as <-. unfold opinv. cbn. pose proof (clk_pos _ _ I).
        assert (wfr c (freed l)) by (rewrite <- Dl; exact Dw).
        split; [lia|]. split; [|auto]. split; [lia|]. split; [auto|]. split; [auto|]. lia.
      * unfold kinv. cbn. eexists; split; [reflexivity|]. discriminate.
    + intros w re P. cbn in P. injection P as <- <-. auto.
    + intros j nl Ij Nj P Ed _. exfalso. destruct (post_facts _ _ _ _ _ _ (I_loc _ _ I j Ij) P) as (Q & _). congruence.
    + intros j Ij Nj A' _. exfalso. destruct (I_H1 _ _ I j Ij A') as (Q & _). congruence.
    + split; [|split]; try nope. intros w re P. cbn in P. injection P as <- <-. cbn. rewrite <- Dl. apply (I_M1 _ _ I).
  - (* crash *)
    injection E as <-.
    destruct (h_op h) as [[t [w|] re [e|]]|] eqn:Eo;
      try (apply quiet_inv; auto; try nope; apply linv_none; auto; reflexivity).
    apply quiet_inv; auto; try nope.
    + constructor; auto.
      * unfold kinv. cbn. discriminate.
      * intros w0 re0 P Z. cbn in P. injection P as <- <-. apply (Lr w re); auto. unfold pend. rewrite Eo. auto.
    + right. split; [|nope]. unfold pend. fold h. rewrite Eo. reflexivity.
Qed.

Definition rec_ok (c : cfg) (r : rcd) : Prop := n_name r = 0 /\ (n_io r = 0 \/ dmax c <= n_io r).

Theorem reach_inv c r t s : cfg_ok c -> rec_ok c r -> dreach c r t s -> inv c s.
Proof.
  intros O R H. induction H.
  - constructor; cbn; try nope; auto.
    + intros i Ii. constructor; cbn; try nope; auto. lia.
    + split; [left; exact R|lia].
    + intros i Ii E. exfalso. apply (ok_0 _ O). destruct R as [R _]. rewrite <- R, E. auto.
    + intros x g' [].
    + intros i Ii. split; [|split]; nope.
    + constructor.
  - eapply step_inv; eauto.
Qed.

(* The ghost fields say what they are meant to say. *)
Definition joined (h : hst) : option rcd :=
  match h_k h with
  | KOwn l _ | KR l _ | KRW _ l => Some l
  | _ => None
  end.

Definition ghost_ok (c : cfg) (t now i : N) (succ : list (N * N)) (h : hst) : Prop :=
  (forall l, joined h = Some l -> h_held h = true /\ In (i, n_gen l) succ) /\
  (forall nl te v t0 re, h_k h = K4 nl -> h_op h = Some (mkIop t0 None re (Some (te, v))) -> nl = v ->
      h_held h = true /\ In (i, n_gen nl) succ) /\
  (forall nl l, h_k h = KRW nl l -> n_gen nl = n_gen l) /\
  (h_held h = true -> h_alive h = true \/ t + DD c i <= now) /\
  (post h <> None \/ h_held h = true -> t <= h_lw h) /\
  (forall nl, h_k h = K4 nl -> exists t0 re e, h_op h = Some (mkIop t0 None re e)) /\
  (forall nl o, h_k h = K3 nl o -> exists t0 w re e, h_op h = Some (mkIop t0 (Some w) re e)).

Definition ginv (c : cfg) (t : N) (s : dst) : Prop :=
  t <= d_now s /\ forall i, ghost_ok c t (d_now s) i (d_succ s) (d_h s i).

Ltac gsplit := split; [|split; [|split; [|split; [|split; [|split]]]]].

Lemma ginv_step c t s e s' : ginv c t s -> estep c s e = Some s' -> ginv c t s'.
Proof.
  intros [T G] E. unfold estep in E. cbv zeta in E.
  assert (Gup : forall i (h' : hst) now clk disk succ,
     now = d_now s -> (forall x, In x (d_succ s) -> In x succ) ->
     ghost_ok c t now i succ h' ->
     ginv c t (mkDst now clk disk (upd (d_h s) i h') succ)).
  { intros i h' now clk disk succ -> Hs H. split; [exact T|]. intros j. cbn [d_h d_succ d_now].
    destruct (N.eq_dec j i) as [->|Nj]; [rewrite upd_same; exact H|].
    rewrite upd_other by auto. destruct (G j) as (G1 & G2 & G3 & G4 & G5 & G6 & G7).
    gsplit; auto.
    - intros l Q. destruct (G1 _ Q). auto.
    - intros nl te v t0 re Q1 Q2 Q3. destruct (G2 _ _ _ _ _ Q1 Q2 Q3). auto. }
  destruct e as [|i|i|i|i|i|i|i|i]; try (set (h := d_h s i) in *; destruct (G i) as (G1 & G2 & G3 & G4 & G5 & G6 & G7); fold h in G1, G2, G3, G4, G5, G6, G7).
  - destruct (forallb _ _); [|discriminate E]. injection E as <-. split; [cbn; lia|].
    intros j. cbn [d_h d_succ d_now]. destruct (G j) as (G1 & G2 & G3 & G4 & G5 & G6 & G7).
    gsplit; auto.
    cbn [h_held h_alive]. intros Q.
    destruct (h_alive (d_h s j)) eqn:Al; [|destruct (G4 Q) as [Q'|Q']; [discriminate Q'|right; lia]].
    cbn. destruct (d_now s + 1 <? h_lw (d_h s j) + delay c (c_io c j)) eqn:B; auto. right.
    specialize (G5 (or_intror Q)). unfold DD. lia.
  - assert (N0 : s' = put_host s i (mkHst K1 (rd (d_now s)) false false (h_lw h) (h_rec h))).
    { destruct (h_k h); try discriminate E; destruct (h_op h); try discriminate E; injection E as <-; auto. }
    subst s'. apply Gup; auto. gsplit; try nope.
    intros [Q|Q]; [cbn in Q; congruence|discriminate Q].
  - destruct (h_op h) as [[t0 [w|] re [e|]]|] eqn:Eo; try discriminate E.
    + injection E as <-. apply Gup; auto. gsplit; auto; try nope.
      * intros nl Q. cbn in Q. destruct (G6 _ Q) as (a & b & d & Q'). discriminate Q'.
      * intros nl o Q. cbn. eauto.
    + assert (Q : (exists nl, h_k h = K4 nl /\ rcd_eqb nl (d_disk s) = true) \/
                  (s' = put_host s i (set_k h (h_k h) (Some (mkIop t0 None re (Some (d_now s, d_disk s))))) /\
                   forall nl, h_k h = K4 nl -> nl <> d_disk s)).
      { destruct (h_k h) eqn:Ek; try (injection E as <-; right; split; [reflexivity|discriminate]; fail).
        destruct (rcd_eqb nl (d_disk s)) eqn:B; [left; eauto|]. injection E as <-. right. split; auto.
        intros nl' Q. injection Q as <-. intros Q. rewrite <- rcd_eqb_eq in Q. congruence. }
      destruct Q as [(nl & Ek & B)|(-> & Q)].
      * rewrite Ek in E. rewrite B in E. injection E as <-.
        assert (Tl : t <= h_lw h) by (apply G5; left; unfold post; rewrite Ek, Eo; discriminate).
        apply Gup; auto; [intros; right; auto|]. gsplit; try nope; auto.
        -- intros nl' te v t1 r1 K Ko Kv. cbn in K. injection K as <-. split; [auto|left; auto].
        -- intros _. cbn [h_alive]. destruct (d_now s <? _) eqn:B'; [auto|]. right. unfold DD. lia.
        -- intros nl' K. cbn. eauto.
      * apply Gup; auto. gsplit; auto.
        -- intros nl te v t1 r1 K Ko Kv. cbn in K, Ko. injection Ko as <- <- <- <-. exfalso. exact (Q _ K Kv).
        -- intros [P|P]; [|auto]. apply G5. left. unfold post in *. cbn in P. rewrite Eo.
           destruct (h_k h) eqn:Ek; auto; try congruence.
           destruct (G7 _ _ eq_refl) as (a & b & d & f & Q'). discriminate Q'.
        -- intros nl K. cbn. eauto.
        -- intros nl o K. cbn in K. destruct (G7 _ _ K) as (a & b & d & f & Q'). discriminate Q'.
  - destruct (h_op h) as [[t0 w re [[te v]|]]|] eqn:Eo; try discriminate E. injection E as <-.
    unfold code. cbv zeta. fold h.
    destruct (h_k h) as [| | |l1 r1 oio u|l1 r1 oio|nl oio|nl u|nl|l ok|l ok|nl l|] eqn:Ek;
      try match goal with |- context[if ?b then _ else _] => destruct b eqn:B end;
      unfold put_host, put_host_clk; apply Gup; auto;
      gsplit; auto; try nope;
      try (intros [P|P]; [cbn in P; congruence|]; apply G5; right; exact P);
      try (let Q := fresh in intros ? Q; cbn in Q; injection Q as <-; apply G1; unfold joined; rewrite Ek; reflexivity).
    + intros ? ? _. cbn. unfold wr. eauto.
    + intros ? ? _. cbn. unfold wr. eauto.
    + intros _. apply G5. left. unfold post. rewrite Ek. rewrite ?Eo. discriminate.
    + intros _. apply G5. left. unfold post. rewrite Ek. rewrite ?Eo. discriminate.
    + intros l Q. cbn in Q. injection Q as <-. rewrite rcd_eqb_eq in B. destruct (G6 _ eq_refl) as (a & b & d & Q').
      injection Q' as -> -> -> <-. exact (G2 _ _ _ _ _ eq_refl eq_refl B).
    + intros nl' l' Q. cbn in Q. injection Q as <- <-. cbn.
      rewrite orb_false_iff, negb_false_iff, andb_true_iff in B. lia.
    + intros l' Q. cbn in Q. injection Q as <-. rewrite (G3 _ _ eq_refl). apply G1. unfold joined. rewrite Ek. auto.
  - destruct (h_op h) eqn:Eo; [|discriminate E]. injection E as <-. unfold put_host. apply Gup; auto.
    gsplit; auto; try nope.
    + intros l Q. apply G1. unfold joined in *. cbn in Q. destruct (h_k h); auto; discriminate Q.
    + intros nl l Q. cbn in Q. destruct (h_k h); discriminate Q.
    + intros [P|P]; [|apply G5; right; exact P]. exfalso. apply P. unfold post. cbn. destruct (h_k h); auto.
    + intros nl Q. cbn in Q. destruct (h_k h); discriminate Q.
    + intros nl o Q. cbn in Q. destruct (h_k h); discriminate Q.
  - destruct (h_k h) eqn:Ek; try discriminate E; destruct (until <=? d_now s); try discriminate E; injection E as <-;
      unfold put_host; apply Gup; auto; gsplit; auto; try nope.
    + intros [P|P]; [|apply G5; right; exact P]. exfalso. apply P. reflexivity.
    + intros _. apply G5. left. unfold post. rewrite Ek. discriminate.
    + intros nl' _. cbn. unfold rd. eauto.
  - destruct (h_k h) eqn:Ek; try discriminate E. injection E as <-. unfold put_host. apply Gup; auto. gsplit; auto; try nope.
    + intros l' Q. cbn in Q. injection Q as <-. apply G1. unfold joined. rewrite Ek. auto.
    + intros [P|P]; [|apply G5; right; exact P]. exfalso. apply P. reflexivity.
  - destruct (h_k h) eqn:Ek; try discriminate E. destruct ok; [|discriminate E].
    destruct (h_alive h); [|discriminate E]. injection E as <-. unfold put_host. apply Gup; auto. gsplit; auto; try nope.
    intros [P|P]; [|discriminate P]. exfalso. apply P. reflexivity.
  - injection E as <-. unfold put_host. apply Gup; auto. gsplit; auto; try nope.
    intros [P|P]; [|apply G5; right; exact P]. exfalso. apply P. reflexivity.
Qed.

Theorem reach_ginv c r t s : dreach c r t s -> ginv c t s.
Proof.
  intros H. induction H.
  - split; [cbn; lia|]. intros i. gsplit; cbn; try nope.
    intros [P|P]; [exfalso; apply P; reflexivity|discriminate P].
  - eapply ginv_step; eauto.
Qed.
