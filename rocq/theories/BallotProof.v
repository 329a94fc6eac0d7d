(* Inductive invariant of the ballot system of Ballot.v under the discipline
   stated there. *)
From Coq Require Import List NArith ZArith Lia Bool ZifyBool ZifyN ZifyNat Arith.
From Verif Require Import Majority Ballot.
Import ListNotations.
Open Scope N_scope.

Ltac sps := repeat match goal with |- _ /\ _ => split; auto end.

Definition simv (x y : dblk) : Prop :=
  d_mbal x = d_mbal y /\ d_bal x = d_bal y /\ blk_val x = blk_val y /\ d_lver x = d_lver y.

Definition good (V b : N) (v : vals) (x : dblk) : Prop :=
  V < d_lver x \/ (d_lver x = V /\ d_mbal x = b /\ d_bal x = b /\ blk_val x = v).

Definition is_prop (ps : list prop) (V b : N) (v : vals) (h : N) : Prop :=
  exists p, In p ps /\ p_lver p = V /\ p_bal p = b /\ p_val p = v /\ p_host p = h.

Definition blkok (ps : list prop) (x : dblk) (q : N) : Prop :=
  (d_bal x = 0 /\ d_inp x = 0) \/
  (d_bal x = d_mbal x /\ is_prop ps (d_lver x) (d_mbal x) (blk_val x) q).

Definition hostok (c : cfg) (h b : N) : Prop :=
  1 <= h /\ h <= c_hosts c /\ c_hosts c <= c_max c /\ b mod c_max c = h mod c_max c /\ 1 <= b.

Definition phase_ok (ps : list prop) (p : phase) (x : dblk) (h : N) : Prop :=
  match p with
  | P1 => d_bal x = 0 /\ d_inp x = 0 /\
          forall p, In p ps -> p_lver p = d_lver x -> p_bal p = d_mbal x -> False
  | P2 => d_bal x = d_mbal x /\ is_prop ps (d_lver x) (d_mbal x) (blk_val x) h
  end.

Definition wrote (s : st) (h : N) (x : dblk) (w : list nat) : Prop :=
  forall d, inw w d = true -> simv (s_disk s d h) x.

Definition loc_ok (c : cfg) (s : st) (h : N) (l : loc) : Prop :=
  match l with
  | Idle => True
  | Wr p x w => x = s_last s h /\ hostok c h (d_mbal x) /\ phase_ok (s_props s) p x h /\ wrote s h x w
  | Rd p x w seen =>
      x = s_last s h /\ hostok c h (d_mbal x) /\ phase_ok (s_props s) p x h /\ wrote s h x w /\
      maj c (inw w) = true /\
      (forall d q b, In (d, q, b) seen -> blkok (s_props s) b q)
  | Dec x w =>
      x = s_last s h /\ hostok c h (d_mbal x) /\ phase_ok (s_props s) P2 x h /\ wrote s h x w /\
      maj c (inw w) = true
  end.

Definition comm (s : st) (h V b : N) (v : vals) (W : list nat) : Prop :=
  In (mkR h V b v W) (s_recs s) \/
  exists x, s_loc s h = Dec x W /\ d_lver x = V /\ d_mbal x = b /\ blk_val x = v.

Definition doomed (s : st) (x : dblk) (seen : list (nat * N * dblk)) : Prop :=
  exists p, In p (s_props s) /\ p_lver p = d_lver x /\ d_mbal x < p_bal p /\
    forall d blk, inw (p_w p) d = true -> In (d, p_host p, blk) seen ->
                  le2 (p_lver p, p_bal p) (key blk).

Record Inv (c : cfg) (s : st) : Prop := mkInv {
  i_blk : forall d q, blkok (s_props s) (s_disk s d q) q;
  i_last : forall h, blkok (s_props s) (s_last s h) h;
  i_mono : forall d h, le2 (key (s_disk s d h)) (key (s_last s h));
  i_props : forall p, In p (s_props s) ->
      maj c (inw (p_w p)) = true /\
      (forall d, inw (p_w p) d = true -> s_floor s < p_lver p -> le2 (p_lver p, p_bal p) (key (s_disk s d (p_host p)))) /\
      hostok c (p_host p) (p_bal p) /\ fst (fst (p_val p)) <> 0 /\
      le2 (p_lver p, p_bal p) (key (s_last s (p_host p)));
  i_uniq : forall p p', In p (s_props s) -> In p' (s_props s) ->
      p_lver p = p_lver p' -> p_bal p = p_bal p' -> p = p';
  i_loc : forall h, loc_ok c s h (s_loc s h);
  i_comm : forall h V b v W, comm s h V b v W ->
      maj c (inw W) = true /\ is_prop (s_props s) V b v h /\
      (forall d, inw W d = true -> s_floor s < V -> good V b v (s_disk s d h)) /\ good V b v (s_last s h);
  i_D2 : forall h V b v W r y wr seen d blk,
      comm s h V b v W -> s_loc s r = Rd P1 y wr seen -> d_lver y = V -> b < d_mbal y ->
      inw W d = true -> In (d, h, blk) seen -> good V b v blk;
  i_S : forall h V b v W p, comm s h V b v W -> In p (s_props s) -> p_lver p = V ->
      b <= p_bal p -> p_val p = v;
  i_X : forall h x w seen r y wr seenr d' blk d blk2,
      s_loc s h = Rd P2 x w seen -> s_loc s r = Rd P1 y wr seenr ->
      d_lver y = d_lver x -> d_mbal x < d_mbal y ->
      inw wr d' = true -> In (d', r, blk) seen -> lt2 (key blk) (key y) ->
      inw w d = true -> In (d, h, blk2) seenr -> good (d_lver x) (d_mbal x) (blk_val x) blk2;
  i_Z : forall h x w seen, s_loc s h = Rd P2 x w seen ->
      (forall p, In p (s_props s) -> p_lver p = d_lver x -> d_mbal x < p_bal p -> p_val p = blk_val x)
      \/ doomed s x seen;
  i_F : busy_above s (s_floor s);
  i_saved : forall h, blkok (s_props s) (s_saved s h) h /\ le2 (key (s_saved s h)) (key (s_last s h)) }.

Lemma upd_eq {A} (f : N -> A) k v : upd f k v k = v.
Proof. unfold upd. now rewrite N.eqb_refl. Qed.
Lemma upd_neq {A} (f : N -> A) k v x : x <> k -> upd f k v x = f x.
Proof. intros H. unfold upd. destruct (N.eqb_spec x k); [contradiction|reflexivity]. Qed.
Lemma upd_inv {A} (f : N -> A) k v x y : upd f k v x = y -> (x = k /\ v = y) \/ (x <> k /\ f x = y).
Proof. unfold upd. destruct (N.eqb_spec x k); auto. Qed.
Lemma ud_eq f d h v : upd_disk f d h v d h = v.
Proof. unfold upd_disk. now rewrite Nat.eqb_refl, N.eqb_refl. Qed.
Lemma ud_cases f d h v d' h' :
  (d' = d /\ h' = h /\ upd_disk f d h v d' h' = v) \/
  ((d' <> d \/ h' <> h) /\ upd_disk f d h v d' h' = f d' h').
Proof.
  unfold upd_disk. destruct (Nat.eqb_spec d' d), (N.eqb_spec h' h); cbn; auto.
Qed.

Lemma maj_meet c f g : maj c f = true -> maj c g = true ->
  exists d, (d < c_disks c)%nat /\ f d = true /\ g d = true.
Proof. apply majorities_intersect. Qed.

Lemma in_hosts c h : 1 <= h -> h <= c_hosts c -> In h (hosts c).
Proof.
  intros H1 H2. unfold hosts. apply in_map_iff. exists (N.to_nat h). split; [lia|].
  apply in_seq. lia.
Qed.

Lemma read_full_in c seen d h : read_full c seen d = true -> 1 <= h -> h <= c_hosts c ->
  exists blk, In (d, h, blk) seen.
Proof.
  intros H H1 H2. unfold read_full in H. rewrite forallb_forall in H.
  specialize (H h (in_hosts c h H1 H2)). apply existsb_exists in H.
  destruct H as (((d', q), blk) & Hin & E). cbn in E.
  apply andb_prop in E. destruct E as [E1 E2]. apply Nat.eqb_eq in E1. apply N.eqb_eq in E2. subst.
  eauto.
Qed.

(* what a completed scan tells *)
Lemma scan1_go lver mbal bks mx0 mx :
  scan1 lver mbal bks mx0 = ScanGo mx ->
  (forall bk, In bk bks -> d_lver bk < lver \/
     (d_lver bk = lver /\ d_mbal bk <= mbal /\
      (d_inp bk = 0 \/ d_bal bk = 0 \/ d_bal bk <= d_bal mx))) /\
  d_bal mx0 <= d_bal mx /\
  (mx = mx0 \/ (In mx bks /\ d_lver mx = lver /\ d_inp mx <> 0 /\ d_bal mx <> 0)).
Proof.
  revert mx0. induction bks as [|bk r IH]; cbn [scan1]; intros mx0 H.
  - injection H as <-. split; [intros ? []|]. split; [lia|auto].
  - destruct (N.ltb_spec (d_lver bk) lver) as [L|L].
    { apply IH in H. destruct H as (A & B & C). split; [|split; [auto|]].
      - intros b [<-|Hb]; [first [now left|right; split; [exact E|]; split; [exact L3|auto]]|auto].
      - destruct C as [C|C]; [auto|right; destruct C as (? & ? & ?); cbn; auto]. }
    destruct (N.ltb_spec lver (d_lver bk)) as [L2|L2]; [discriminate|].
    destruct (N.ltb_spec mbal (d_mbal bk)) as [L3|L3]; [discriminate|].
    assert (E : d_lver bk = lver) by lia.
    destruct (N.eqb_spec (d_inp bk) 0) as [Z0|Z0].
    { apply IH in H. destruct H as (A & B & C). split; [|split; [auto|]].
      - intros b [<-|Hb]; [first [now left|right; split; [exact E|]; split; [exact L3|auto]]|auto].
      - destruct C as [C|C]; [auto|right; destruct C as (? & ? & ?); cbn; auto]. }
    destruct (N.eqb_spec (d_bal bk) 0) as [Z1|Z1].
    { apply IH in H. destruct H as (A & B & C). split; [|split; [auto|]].
      - intros b [<-|Hb]; [first [now left|right; split; [exact E|]; split; [exact L3|auto]]|auto].
      - destruct C as [C|C]; [auto|right; destruct C as (? & ? & ?); cbn; auto]. }
    destruct (N.ltb_spec (d_bal mx0) (d_bal bk)) as [Z2|Z2].
    + apply IH in H. destruct H as (A & B & C). split; [|split; [lia|]].
      * intros b [<-|Hb]; [right; split; [exact E|]; split; [exact L3|auto]|auto].
      * destruct C as [->|C]; right; cbn; [auto|destruct C as (? & ? & ?); auto].
    + apply IH in H. destruct H as (A & B & C). split; [|split; [lia|]].
      * intros b [<-|Hb]; auto. right. split; [auto|]. split; [lia|]. right. right. lia.
      * destruct C as [C|C]; [auto|right; destruct C as (? & ? & ?); cbn; auto].
Qed.

Lemma scan2_go lver mbal bks mx :
  scan2 lver mbal bks = ScanGo mx ->
  forall bk, In bk bks -> d_lver bk < lver \/ (d_lver bk = lver /\ d_mbal bk <= mbal).
Proof.
  induction bks as [|bk r IH]; cbn [scan2]; intros H b Hb; [destruct Hb|].
  destruct (N.ltb_spec (d_lver bk) lver) as [L|L].
  { destruct Hb as [<-|Hb]; auto. }
  destruct (N.ltb_spec lver (d_lver bk)) as [L2|L2]; [discriminate|].
  destruct (N.ltb_spec mbal (d_mbal bk)) as [L3|L3]; [discriminate|].
  destruct Hb as [<-|Hb]; auto. right. lia.
Qed.

Lemma is_prop_mono ps p V b v h : is_prop ps V b v h -> is_prop (p :: ps) V b v h.
Proof. intros (q & H & R). exists q. cbn. auto. Qed.
Lemma blkok_mono ps p x q : blkok ps x q -> blkok (p :: ps) x q.
Proof. intros [H|[H1 H2]]; [left; auto|right; split; auto using is_prop_mono]. Qed.

Lemma host_mod_inj m h h' : 1 <= h -> h <= m -> 1 <= h' -> h' <= m ->
  h mod m = h' mod m -> h = h'.
Proof.
  intros A B C D E.
  assert (X : forall k, 1 <= k -> k <= m -> k mod m = if k =? m then 0 else k).
  { intros k K1 K2. destruct (N.eqb_spec k m) as [->|]; [apply N.mod_same; lia|].
    apply N.mod_small. lia. }
  rewrite (X h), (X h') in E by lia.
  destruct (N.eqb_spec h m), (N.eqb_spec h' m); lia.
Qed.

Lemma hostok_inj c h h' b : hostok c h b -> hostok c h' b -> h = h'.
Proof.
  intros (A1 & A2 & A3 & A4 & _) (B1 & B2 & B3 & B4 & _).
  eapply (host_mod_inj (c_max c)); lia.
Qed.

Lemma simv_good V b v x y : simv x y -> good V b v y -> good V b v x.
Proof.
  intros (A & B & C & D) [H|(H1 & H2 & H3 & H4)]; [left; lia|right; repeat split; congruence].
Qed.

Lemma simv_with_flags x r sh : simv (with_flags x r sh) x.
Proof. repeat split. Qed.

Lemma simv_key x y : simv x y -> key x = key y.
Proof. intros (A & B & C & D). unfold key. congruence. Qed.

Lemma simv_blkok ps x y q : simv x y -> blkok ps y q -> blkok ps x q.
Proof.
  intros (A & B & C & D) H. unfold blk_val in C. injection C as C1 C2 C3.
  unfold blkok, blk_val in *. rewrite A, B, C1, C2, C3, D. exact H.
Qed.

Lemma le2_refl a : le2 a a.
Proof. right. split; [reflexivity|lia]. Qed.
Lemma le2_trans a b c : le2 a b -> le2 b c -> le2 a c.
Proof. unfold le2. intros. lia. Qed.
Lemma lt2_le2 a b : lt2 a b -> le2 a b.
Proof. unfold le2, lt2. intros. lia. Qed.

Lemma inv_init c : Inv c init.
Proof.
  constructor; cbn.
  - intros. left. auto.
  - intros. left. auto.
  - intros. apply le2_refl.
  - intros ? [].
  - intros ? ? [].
  - intros. exact I.
  - intros h V b v W [[]|(x & H & _)]. discriminate.
  - intros h V b v W r y wr seen d blk _ H. discriminate.
  - intros h V b v W p _ [].
  - intros. discriminate.
  - intros. discriminate.
  - intros q. exact I.
  - intros. split; [left; auto|apply le2_refl].
Qed.

Ltac busyt F := intros q0; cbn;
  match goal with |- context[upd _ ?h _ q0] =>
    destruct (N.eq_dec q0 h) as [->|Hq0]; [rewrite upd_eq|rewrite upd_neq by auto; apply F] end.

(* --- giving up ------------------------------------------------------------ *)
Lemma inv_idle c s h : Inv c s -> Inv c (set_loc s h Idle).
Proof.
  intros I. destruct I.
  assert (CM : forall h' V b v W, comm (set_loc s h Idle) h' V b v W -> comm s h' V b v W).
  { intros h' V b v W [H|(x & H & R)]; [left; exact H|].
    cbn in H. apply upd_inv in H. destruct H as [[_ H]|[_ H]]; [discriminate|].
    right. exists x. auto. }
  constructor; cbn [set_loc s_disk s_loc s_last s_gen s_props s_recs s_saved s_floor].
  - exact i_blk0.
  - exact i_last0.
  - exact i_mono0.
  - exact i_props0.
  - exact i_uniq0.
  - intros h'. destruct (N.eq_dec h' h) as [->|Hn]; [rewrite upd_eq; exact I|].
    rewrite upd_neq by auto. apply i_loc0.
  - intros h' V b v W H. apply CM in H. apply i_comm0 in H. exact H.
  - intros h' V b v W r y wr seen d blk H HR. apply CM in H.
    apply upd_inv in HR. destruct HR as [[_ HR]|[_ HR]]; [discriminate|]. eauto.
  - intros h' V b v W p H. apply CM in H. eauto.
  - intros h' x w seen r y wr seenr d' blk d blk2 H HR.
    apply upd_inv in H. destruct H as [[_ H]|[_ H]]; [discriminate|].
    apply upd_inv in HR. destruct HR as [[_ HR]|[_ HR]]; [discriminate|]. eauto.
  - intros h' x w seen H. apply upd_inv in H. destruct H as [[_ H]|[_ H]]; [discriminate|].
    apply i_Z0 in H. exact H.
  - busyt i_F0. exact Logic.I.
  - exact i_saved0.
Qed.

(* --- a write of the host's current block ---------------------------------- *)
Lemma inv_wr_disk c s d h x : Inv c s -> simv x (s_last s h) -> Inv c (set_disk s d h x).
Proof.
  intros I SX. destruct I.
  set (s' := set_disk s d h x).
  assert (DK : forall d' h', (h' = h /\ s_disk s' d' h' = x) \/ s_disk s' d' h' = s_disk s d' h').
  { intros d' h'. unfold s', set_disk. cbn.
    destruct (ud_cases (s_disk s) d h x d' h') as [(A & B & C)|(_ & C)]; rewrite C; auto. }
  assert (KX : key x = key (s_last s h)) by (apply simv_key; auto).
  assert (CM : forall h' V b v W, comm s' h' V b v W -> comm s h' V b v W) by (intros; assumption).
  constructor.
  - intros d' q. destruct (DK d' q) as [[-> ->]| ->]; [|apply i_blk0].
    eapply simv_blkok; [exact SX|apply i_last0].
  - exact i_last0.
  - intros d' h'. change (s_last s' h') with (s_last s h').
    destruct (DK d' h') as [[-> ->]| ->]; [rewrite KX; apply le2_refl|apply i_mono0].
  - intros p Hp. destruct (i_props0 p Hp) as (A & B & C & D & E). sps.
    intros d' Hd Hf. destruct (DK d' (p_host p)) as [[Eh ->]| ->]; [|auto].
    rewrite KX, <- Eh. exact E.
  - exact i_uniq0.
  - intros h'. specialize (i_loc0 h'). change (s_loc s' h') with (s_loc s h').
    assert (WR : forall y w, y = s_last s h' -> wrote s h' y w -> wrote s' h' y w).
    { intros y w Ey Hw d' Hd. destruct (DK d' h') as [[-> ->]| ->]; [subst y; exact SX|auto]. }
    destruct (s_loc s h'); cbn in *; [exact I| | | ].
    + destruct i_loc0 as (A & B & C & D). sps.
    + destruct i_loc0 as (A & B & C & D & E). sps.
    + destruct i_loc0 as (A & B & C & D & E). sps.
  - intros h' V b v W H. apply CM in H. destruct (i_comm0 _ _ _ _ _ H) as (A & B & C & D).
    sps. intros d' Hd Hf. destruct (DK d' h') as [[-> ->]| ->]; [|auto].
    eapply simv_good; [exact SX|exact D].
  - exact i_D3.
  - exact i_S0.
  - exact i_X0.
  - exact i_Z0.
  - exact i_F0.
  - exact i_saved0.
Qed.

(* --- a counted write ------------------------------------------------------- *)
Lemma inv_wr_count c s h p x w d : Inv c s -> s_loc s h = Wr p x w ->
  simv (s_disk s d h) x -> Inv c (set_loc s h (Wr p x (d :: w))).
Proof.
  intros I L SX. pose proof (i_loc c s I h) as LO. rewrite L in LO. destruct I.
  assert (CM : forall h' V b v W, comm (set_loc s h (Wr p x (d :: w))) h' V b v W -> comm s h' V b v W).
  { intros h' V b v W [H|(y & H & R)]; [left; exact H|].
    cbn in H. apply upd_inv in H. destruct H as [[_ H]|[_ H]]; [discriminate|].
    right. exists y. auto. }
  constructor; cbn [set_loc s_disk s_loc s_last s_gen s_props s_recs s_saved s_floor].
  - exact i_blk0.
  - exact i_last0.
  - exact i_mono0.
  - exact i_props0.
  - exact i_uniq0.
  - intros h'. destruct (N.eq_dec h' h) as [->|Hn].
    + rewrite upd_eq. cbn in *. destruct LO as (A & B & C & D). sps.
      intros d' Hd. unfold inw in Hd. cbn [existsb] in Hd. apply orb_prop in Hd.
      destruct Hd as [Hd|Hd]; [apply Nat.eqb_eq in Hd; subst; exact SX|apply D; exact Hd].
    + rewrite upd_neq by auto. apply i_loc0.
  - intros h' V b v W H. apply CM in H. apply i_comm0 in H. exact H.
  - intros h' V b v W r y wr seen d' blk H HR. apply CM in H.
    apply upd_inv in HR. destruct HR as [[_ HR]|[_ HR]]; [discriminate|]. eauto.
  - intros h' V b v W q H. apply CM in H. eauto.
  - intros h' y w' seen r z wr seenr d' blk d'' blk2 H HR.
    apply upd_inv in H. destruct H as [[_ H]|[_ H]]; [discriminate|].
    apply upd_inv in HR. destruct HR as [[_ HR]|[_ HR]]; [discriminate|]. eauto.
  - intros h' y w' seen H. apply upd_inv in H. destruct H as [[_ H]|[_ H]]; [discriminate|].
    apply i_Z0 in H. exact H.
  - busyt i_F0. pose proof (i_F0 h) as X. rewrite L in X. exact X.
  - exact i_saved0.
Qed.

(* --- start of a ballot ------------------------------------------------------ *)
Lemma inv_start c s h lver mbal gen : Inv c s -> s_loc s h = Idle -> hostok c h mbal ->
  lt2 (key (s_last s h)) (lver, mbal) ->
  (forall r, In r (s_recs s) -> r_host r = h -> r_lver r < lver) ->
  s_floor s < lver ->
  Inv c (mkS (s_disk s) (upd (s_loc s) h (Wr P1 (phase1_blk lver mbal) []))
             (upd (s_last s) h (phase1_blk lver mbal)) (upd (s_gen s) h gen)
             (s_props s) (s_recs s) ((h, lver, gen) :: s_starts s)
             (s_saved s) (s_floor s)).
Proof.
  intros I L HO LT RC FL. destruct I.
  set (s' := mkS _ _ _ _ _ _ _ _ _).
  assert (CM : forall h' V b v W, comm s' h' V b v W -> comm s h' V b v W).
  { intros h' V b v W [H|(y & H & R)]; [left; exact H|].
    cbn in H. apply upd_inv in H. destruct H as [[_ H]|[_ H]]; [discriminate|].
    right. exists y. auto. }
  constructor; cbn [s' s_disk s_loc s_last s_gen s_props s_recs s_saved s_floor].
  - exact i_blk0.
  - intros h'. destruct (N.eq_dec h' h) as [->|Hn]; [rewrite upd_eq; left; auto|].
    rewrite upd_neq by auto. apply i_last0.
  - intros d' h'. destruct (N.eq_dec h' h) as [->|Hn]; [|rewrite upd_neq by auto; apply i_mono0].
    rewrite upd_eq. eapply le2_trans; [apply i_mono0|]. apply lt2_le2. exact LT.
  - intros p Hp. destruct (i_props0 p Hp) as (A & B & C & D & E). sps.
    destruct (N.eq_dec (p_host p) h) as [Eh|Hn]; [|rewrite upd_neq by auto; exact E].
    rewrite Eh, upd_eq. rewrite Eh in E. eapply le2_trans; [exact E|]. apply lt2_le2. exact LT.
  - exact i_uniq0.
  - intros h'. destruct (N.eq_dec h' h) as [->|Hn].
    + rewrite upd_eq. cbn. rewrite upd_eq. split; [reflexivity|]. split; [exact HO|].
      split; [|intros d' Hd; discriminate].
      repeat (split; [reflexivity|]). intros p Hp E1 E2.
      destruct (i_props0 p Hp) as (_ & _ & HP & _ & LE).
      cbn in E1, E2. rewrite E2 in HP.
      assert (Eh : p_host p = h) by (eapply hostok_inj; eauto).
      rewrite Eh, E1, E2 in LE. unfold le2, lt2 in *. cbn [fst snd] in *. lia.
    + rewrite upd_neq by auto. specialize (i_loc0 h').
      destruct (s_loc s h'); cbn in *; [exact I| | | ]; rewrite upd_neq by auto; exact i_loc0.
  - intros h' V b v W H. pose proof (CM _ _ _ _ _ H) as H'.
    destruct (i_comm0 _ _ _ _ _ H') as (A & B & C & D). sps.
    destruct (N.eq_dec h' h) as [->|Hn]; [|rewrite upd_neq by auto; exact D].
    rewrite upd_eq. left. cbn. destruct H as [H|(y & H & _)].
    + apply (RC _ H eq_refl).
    + cbn in H. rewrite upd_eq in H. discriminate.
  - intros h' V b v W r y wr seen d' blk H HR. apply CM in H.
    apply upd_inv in HR. destruct HR as [[_ HR]|[_ HR]]; [discriminate|]. eauto.
  - intros h' V b v W q H. apply CM in H. eauto.
  - intros h' y w' seen r z wr seenr d' blk d'' blk2 H HR.
    apply upd_inv in H. destruct H as [[_ H]|[_ H]]; [discriminate|].
    apply upd_inv in HR. destruct HR as [[_ HR]|[_ HR]]; [discriminate|]. eauto.
  - intros h' y w' seen H. apply upd_inv in H. destruct H as [[_ H]|[_ H]]; [discriminate|].
    apply i_Z0 in H. exact H.
  - busyt i_F0. exact FL.
  - intros h'. destruct (i_saved0 h') as (A & B). split; [exact A|].
    destruct (N.eq_dec h' h) as [->|Hn]; [|rewrite upd_neq by auto; exact B].
    rewrite upd_eq. eapply le2_trans; [exact B|]. apply lt2_le2. exact LT.
Qed.

Definition vals_eq_dec (a b : vals) : {a = b} + {a <> b}.
Proof. repeat decide equality. Defined.

(* either all later ballots carry v, or one does not *)
Lemma props_split (ps : list prop) V b v :
  (forall p, In p ps -> p_lver p = V -> b < p_bal p -> p_val p = v) \/
  (exists p, In p ps /\ p_lver p = V /\ b < p_bal p /\ p_val p <> v).
Proof.
  induction ps as [|p ps IH]; [left; intros ? []|].
  destruct (N.eq_dec (p_lver p) V) as [E1|E1];
    [destruct (N.lt_ge_cases b (p_bal p)) as [E2|E2];
       [destruct (vals_eq_dec (p_val p) v) as [E3|E3]|]|].
  2: { right. exists p. cbn. auto. }
  all: destruct IH as [IH|(q & Hq & R)]; [left|right; exists q; cbn; auto];
    intros q [<-|Hq] F1 F2; auto; try lia.
Qed.

(* --- end of the writes of a phase ------------------------------------------- *)
Lemma inv_wdone c s h p x w : Inv c s -> s_loc s h = Wr p x w -> maj c (inw w) = true ->
  Inv c (set_loc s h (Rd p x w [])).
Proof.
  intros I L MW. pose proof (i_loc c s I h) as LO. rewrite L in LO. cbn in LO.
  destruct LO as (LA & LB & LC & LD). destruct I.
  assert (CM : forall h' V b v W, comm (set_loc s h (Rd p x w [])) h' V b v W -> comm s h' V b v W).
  { intros h' V b v W [H|(y & H & R)]; [left; exact H|].
    cbn in H. apply upd_inv in H. destruct H as [[_ H]|[_ H]]; [discriminate|].
    right. exists y. auto. }
  constructor; cbn [set_loc s_disk s_loc s_last s_gen s_props s_recs s_saved s_floor].
  - exact i_blk0.
  - exact i_last0.
  - exact i_mono0.
  - exact i_props0.
  - exact i_uniq0.
  - intros h'. destruct (N.eq_dec h' h) as [->|Hn].
    + rewrite upd_eq. cbn. sps. intros ? ? ? [].
    + rewrite upd_neq by auto. apply i_loc0.
  - intros h' V b v W H. apply CM in H. apply i_comm0 in H. exact H.
  - intros h' V b v W r y wr seen d' blk H HR. apply CM in H.
    apply upd_inv in HR. destruct HR as [[_ HR]|[_ HR]]; [|eauto].
    injection HR as _ _ _ <-. intros _ _ _ [].
  - intros h' V b v W q H. apply CM in H. eauto.
  - intros h' y w' seen r z wr seenr d' blk d'' blk2 H HR.
    apply upd_inv in H. destruct H as [[_ H]|[_ H]].
    { injection H as _ _ _ <-. intros _ _ _ []. }
    apply upd_inv in HR. destruct HR as [[_ HR]|[_ HR]]; [|eauto].
    injection HR as _ _ _ <-. intros _ _ _ _ _ _ [].
  - intros h' y w' seen H. apply upd_inv in H. destruct H as [[_ H]|[_ H]].
    + injection H as _ <- _ <-.
      destruct (props_split (s_props s) (d_lver x) (d_mbal x) (blk_val x)) as [A|(q & Hq & A & B & _)].
      * left. exact A.
      * right. exists q. sps. intros ? ? ? [].
    + apply i_Z0 in H. exact H.
  - busyt i_F0. pose proof (i_F0 h) as X. rewrite L in X. exact X.
  - exact i_saved0.
Qed.

(* --- a sector read ----------------------------------------------------------- *)
Lemma inv_read c s h p x w seen d q : Inv c s -> s_loc s h = Rd p x w seen ->
  Inv c (set_loc s h (Rd p x w (seen ++ [(d, q, s_disk s d q)]))).
Proof.
  intros I L. pose proof (i_loc c s I h) as LO. rewrite L in LO. cbn in LO.
  destruct LO as (LA & LB & LC & LD & LE & LF). destruct I.
  set (s' := set_loc s h _).
  assert (CM : forall h' V b v W, comm s' h' V b v W -> comm s h' V b v W).
  { intros h' V b v W [H|(y & H & R)]; [left; exact H|].
    cbn in H. apply upd_inv in H. destruct H as [[_ H]|[_ H]]; [discriminate|].
    right. exists y. auto. }
  constructor; cbn [s' set_loc s_disk s_loc s_last s_gen s_props s_recs s_saved s_floor].
  - exact i_blk0.
  - exact i_last0.
  - exact i_mono0.
  - exact i_props0.
  - exact i_uniq0.
  - intros h'. destruct (N.eq_dec h' h) as [->|Hn].
    + rewrite upd_eq. cbn. sps. intros d' q' b Hb.
      apply in_app_or in Hb. destruct Hb as [Hb|[Hb|[]]]; [eauto|].
      injection Hb as <- <- <-. apply i_blk0.
    + rewrite upd_neq by auto. apply i_loc0.
  - intros h' V b v W H. apply CM in H. apply i_comm0 in H. exact H.
  - intros h' V b v W r y wr seen' d' blk H HR E1 E2 HW Hin. apply CM in H.
    apply upd_inv in HR. destruct HR as [[-> HR]|[_ HR]]; [|eauto].
    injection HR as -> <- <- <-.
    apply in_app_or in Hin. destruct Hin as [Hin|[Hin|[]]]; [eauto|].
    injection Hin as -> -> <-. apply (i_comm0 _ _ _ _ _ H); [exact HW|].
    pose proof (i_F0 h) as X. rewrite L in X. rewrite <- E1. exact X.
  - intros h' V b v W q' H. apply CM in H. eauto.
  - intros h' y w' seen' r z wr seenr d' blk d'' blk2 H HR E1 E2 Hwr Hin LT Hw Hin2.
    apply upd_inv in H. apply upd_inv in HR.
    destruct H as [[-> H]|[Hn H]].
    + injection H as -> <- <- <-.
      destruct HR as [[_ HR]|[_ HR]]; [discriminate|].
      apply in_app_or in Hin. destruct Hin as [Hin|[Hin|[]]]; [eauto|].
      injection Hin as -> -> <-. exfalso.
      pose proof (i_loc0 r) as LR. rewrite HR in LR. cbn in LR.
      destruct LR as (_ & _ & _ & LW & _). specialize (LW d' Hwr).
      apply simv_key in LW. rewrite LW in LT. unfold lt2 in LT. lia.
    + destruct HR as [[-> HR]|[_ HR]].
      * injection HR as -> <- <- <-.
        apply in_app_or in Hin2. destruct Hin2 as [Hin2|[Hin2|[]]]; [eauto|].
        injection Hin2 as -> -> <-.
        pose proof (i_loc0 h') as LR. rewrite H in LR. cbn in LR.
        destruct LR as (_ & _ & (LP & _) & LW & _). specialize (LW d'' Hw).
        destruct LW as (W1 & W2 & W3 & W4). right. repeat split; try congruence.
      * eauto.
  - intros h' y w' seen' H. apply upd_inv in H. destruct H as [[-> H]|[_ H]].
    + injection H as -> <- <- <-. destruct (i_Z0 _ _ _ _ L) as [A|(p' & P1' & P2' & P3' & P4')]; [left; exact A|].
      right. exists p'. sps. intros d' blk HW Hin.
      apply in_app_or in Hin. destruct Hin as [Hin|[Hin|[]]]; [eauto|].
      injection Hin as -> -> <-. apply (i_props0 p' P1'); [exact HW|].
      pose proof (i_F0 h) as X. rewrite L in X. rewrite P2'. exact X.
    + destruct (i_Z0 _ _ _ _ H) as [A|A]; [left|right]; exact A.
  - busyt i_F0. pose proof (i_F0 h) as X. rewrite L in X. exact X.
  - exact i_saved0.
Qed.

(* --- end of phase 1: choosing a value ----------------------------------------- *)
Lemma choose_val c s h x w seen mx V b v h0 d blk now :
  Inv c s -> s_loc s h = Rd P1 x w seen ->
  scan1 (d_lver x) (d_mbal x) (map snd seen) zero_blk = ScanGo mx ->
  V = d_lver x -> is_prop (s_props s) V b v h0 ->
  In (d, h0, blk) seen -> good V b v blk ->
  (forall p, In p (s_props s) -> p_lver p = V -> b < p_bal p -> p_val p = v) ->
  blk_val (phase2_blk x mx h (s_gen s h) now) = v.
Proof.
  intros I L SC EV (p & Hp & P1' & P2' & P3' & P4') Hin G HS.
  pose proof (i_loc c s I h) as LO. rewrite L in LO. cbn in LO.
  destruct LO as (LA & LB & LC & LD & LE & LF). destruct I.
  destruct (i_props0 p Hp) as (_ & _ & HO & NZ & _).
  destruct HO as (_ & _ & _ & _ & B1).
  apply scan1_go in SC. destruct SC as (A & _ & C).
  assert (Hbk : In blk (map snd seen)).
  { apply in_map_iff. exists (d, h0, blk). auto. }
  assert (Gx : d_lver blk = V /\ d_bal blk = b /\ blk_val blk = v).
  { destruct G as [G|(G1 & G2 & G3 & G4)]; [|auto].
    exfalso. destruct (A blk Hbk) as [X|(X & _)]; lia. }
  destruct Gx as (G1 & G3 & G4).
  assert (NI : d_inp blk <> 0).
  { rewrite <- P3' in G4. rewrite <- G4 in NZ. exact NZ. }
  assert (BM : b <= d_bal mx).
  { destruct (A blk Hbk) as [X|(_ & _ & [X|[X|X]])]; lia. }
  destruct C as [->|(C1 & C2 & C3 & C4)].
  { cbn in BM. lia. }
  apply in_map_iff in C1. destruct C1 as (((d1, q1), mx') & C1 & C1'). cbn in C1. subst mx'.
  destruct (LF _ _ _ C1') as [[Z _]|(Z & (p1 & Q & Q1 & Q2 & Q3 & Q4))]; [congruence|].
  unfold phase2_blk. destruct (N.eqb_spec (d_inp mx) 0) as [E|_]; [congruence|].
  change (blk_val (mkD (d_mbal x) (d_mbal x) (d_inp mx) (d_inp2 mx) (d_inp3 mx) (d_lver x) false 0))
    with (blk_val mx).
  rewrite <- Q3.
  destruct (N.eq_dec (p_bal p1) b) as [E|E].
  - assert (X : p1 = p) by (apply i_uniq0; auto; congruence). subst p1. congruence.
  - apply HS; auto; [congruence|]. lia.
Qed.

Lemma phase2_fields x mx h g now :
  let y := phase2_blk x mx h g now in
  d_lver y = d_lver x /\ d_mbal y = d_mbal x /\ d_bal y = d_mbal x /\ (1 <= h -> d_inp y <> 0).
Proof.
  unfold phase2_blk. destruct (N.eqb_spec (d_inp mx) 0); cbn; repeat split; try reflexivity; lia.
Qed.

Lemma inv_choose c s h x w seen mx now : Inv c s -> s_loc s h = Rd P1 x w seen ->
  maj c (read_full c seen) = true ->
  scan1 (d_lver x) (d_mbal x) (map snd seen) zero_blk = ScanGo mx ->
  let y := phase2_blk x mx h (s_gen s h) now in
  Inv c (mkS (s_disk s) (upd (s_loc s) h (Wr P2 y [])) (upd (s_last s) h y) (s_gen s)
             (mkP (d_lver y) (d_mbal y) (blk_val y) h w :: s_props s) (s_recs s) (s_starts s)
             (s_saved s) (s_floor s)).
Proof.
  intros I L MR SC y.
  pose proof (fun V b v h0 d blk => choose_val c s h x w seen mx V b v h0 d blk now I L SC) as K.
  fold y in K.
  destruct (phase2_fields x mx h (s_gen s h) now) as (Y1 & Y2 & Y3 & Y4). fold y in Y1, Y2, Y3, Y4.
  pose proof (i_loc c s I h) as LO. rewrite L in LO. cbn in LO.
  destruct LO as (LA & LB & (LC1 & LC2 & LC3) & LD & LE & LF).
  assert (I' := I). destruct I.
  set (p0 := mkP (d_lver y) (d_mbal y) (blk_val y) h w).
  set (s' := mkS _ _ _ _ _ _ _ _ _).
  assert (CM : forall h' V b v W, comm s' h' V b v W -> comm s h' V b v W).
  { intros h' V b v W [H|(z & H & R)]; [left; exact H|].
    cbn in H. apply upd_inv in H. destruct H as [[_ H]|[_ H]]; [discriminate|].
    right. exists z. auto. }
  assert (KY : key y = key (s_last s h)).
  { unfold key. rewrite Y1, Y2, <- LA. reflexivity. }
  constructor; cbn [s' s_disk s_loc s_last s_gen s_props s_recs s_saved s_floor].
  - intros. apply blkok_mono. apply i_blk0.
  - intros h'. destruct (N.eq_dec h' h) as [->|Hn].
    + rewrite upd_eq. right. split; [congruence|]. exists p0. cbn. auto 10.
    + rewrite upd_neq by auto. apply blkok_mono. apply i_last0.
  - intros d' h'. destruct (N.eq_dec h' h) as [->|Hn]; [|rewrite upd_neq by auto; apply i_mono0].
    rewrite upd_eq, KY. apply i_mono0.
  - intros p [<-|Hp].
    + cbn. rewrite upd_eq. split; [exact LE|]. split; [|split; [|split]].
      * intros d Hd _. specialize (LD d Hd). apply simv_key in LD. rewrite LD.
        unfold key. rewrite Y1, Y2. apply le2_refl.
      * rewrite Y2. exact LB.
      * apply Y4. apply LB.
      * apply le2_refl.
    + destruct (i_props0 p Hp) as (A & B & C & D & E). sps.
      destruct (N.eq_dec (p_host p) h) as [Eh|Hn]; [|rewrite upd_neq by auto; exact E].
      rewrite Eh, upd_eq, KY, <- Eh. exact E.
  - intros p p' [<-|Hp] [<-|Hp'] E1 E2; auto; exfalso; cbn in E1, E2.
    + apply (LC3 p' Hp'); congruence.
    + apply (LC3 p Hp); congruence.
  - intros h'. destruct (N.eq_dec h' h) as [->|Hn].
    + rewrite upd_eq. cbn. rewrite upd_eq. split; [reflexivity|]. split; [rewrite Y2; exact LB|].
      split; [|intros d' Hd; discriminate].
      split; [congruence|]. exists p0. cbn. auto 10.
    + rewrite upd_neq by auto. specialize (i_loc0 h').
      assert (PH : forall p z, hostok c h' (d_mbal z) -> phase_ok (s_props s) p z h' ->
                               phase_ok (p0 :: s_props s) p z h').
      { intros p z HO HP. destruct p; cbn in *.
        - destruct HP as (A & B & C). sps. intros p [<-|Hp] E1 E2; [|eauto].
          cbn in E2. apply Hn. eapply hostok_inj; [exact HO|]. rewrite <- E2, Y2. exact LB.
        - destruct HP as (A & B). split; auto using is_prop_mono. }
      assert (LL : s_last s' h' = s_last s h') by (cbn; apply upd_neq; auto).
      destruct (s_loc s h'); cbn [loc_ok] in *; [exact Logic.I| | | ];
        rewrite LL; change (s_props s') with (p0 :: s_props s).
      * destruct i_loc0 as (A & B & C & D). sps.
      * destruct i_loc0 as (A & B & C & D & E & F). sps. intros; apply blkok_mono; eauto.
      * destruct i_loc0 as (A & B & C & D & E). sps.
  - intros h' V b v W H. apply CM in H. destruct (i_comm0 _ _ _ _ _ H) as (A & B & C & D).
    split; [auto|]. split; [auto using is_prop_mono|]. split; [auto|].
    destruct (N.eq_dec h' h) as [->|Hn]; [|rewrite upd_neq by auto; exact D].
    rewrite upd_eq. left. rewrite Y1. rewrite <- LA in D. destruct D as [D|(D1 & D2 & D3 & D4)]; [exact D|].
    exfalso. destruct B as (p & Hp & _ & E & _). destruct (i_props0 p Hp) as (_ & _ & (_ & _ & _ & _ & X) & _).
    lia.
  - intros h' V b v W r z wr seen' d' blk H HR. apply CM in H.
    apply upd_inv in HR. destruct HR as [[_ HR]|[_ HR]]; [discriminate|]. eauto.
  - intros h' V b v W p H [<-|Hp] E1 E2; [|apply CM in H; eauto].
    apply CM in H. cbn in E1, E2 |- *. destruct (i_comm0 _ _ _ _ _ H) as (A & B & C & D).
    assert (NE : b <> d_mbal y).
    { intros ->. destruct B as (p & Hp & B1 & B2 & _). apply (LC3 p Hp); congruence. }
    destruct (maj_meet c _ _ A MR) as (d & Dn & Dw & Dr).
    assert (HH : 1 <= h' /\ h' <= c_hosts c).
    { destruct B as (p & Hp & _ & _ & _ & B4). destruct (i_props0 p Hp) as (_ & _ & (X1 & X2 & _) & _).
      rewrite B4 in X1, X2. auto. }
    destruct (read_full_in c seen d h' Dr) as (blk & Hblk); try tauto.
    eapply (K V b v h' d blk); auto; [congruence| |].
    + eapply i_D3; eauto; [congruence|lia].
    + intros p Hp F1 F2. apply (i_S0 _ _ _ _ _ p H Hp F1). lia.
  - intros h' z w' seen' r z' wr seenr d' blk d'' blk2 H HR.
    apply upd_inv in H. destruct H as [[_ H]|[_ H]]; [discriminate|].
    apply upd_inv in HR. destruct HR as [[_ HR]|[_ HR]]; [discriminate|]. eauto.
  - intros h' z w' seen' H. apply upd_inv in H. destruct H as [[_ H]|[Hn H]]; [discriminate|].
    destruct (i_Z0 _ _ _ _ H) as [A|(p & Hp & B)];
      [|right; exists p; cbn; split; [right; exact Hp|exact B]].
    destruct (N.eq_dec (d_lver y) (d_lver z)) as [E1|E1];
      [destruct (N.lt_ge_cases (d_mbal z) (d_mbal y)) as [E2|E2];
         [destruct (vals_eq_dec (blk_val y) (blk_val z)) as [E3|E3]|]|];
      try (left; intros p [<-|Hp] F1 F2; [cbn in *; solve [congruence|lia]|auto]).
    right. exists p0. cbn [p_lver p_bal p_host p_w p0]. split; [left; reflexivity|].
    split; [exact E1|]. split; [exact E2|].
    intros d blk Hw Hb.
    destruct (N.lt_ge_cases (d_lver blk) (d_lver y)) as [G1|G1];
      [|destruct (N.lt_ge_cases (d_lver y) (d_lver blk)) as [G2|G2];
        [left; cbn; exact G2|destruct (N.lt_ge_cases (d_mbal blk) (d_mbal y)) as [G3|G3];
          [|right; cbn; lia]]].
    all: exfalso; apply E3.
    all: pose proof (i_loc0 h') as LH; rewrite H in LH; cbn in LH;
      destruct LH as (HA & HB & (HC1 & HC2) & HD & HE & HF).
    all: destruct (maj_meet c _ _ HE MR) as (d2 & Dn & Dw & Dr).
    all: destruct HB as (X1 & X2 & X3).
    all: destruct (read_full_in c seen d2 h' Dr X1 X2) as (blk2 & Hblk2).
    all: eapply (K (d_lver z) (d_mbal z) (blk_val z) h' d2 blk2); auto; [congruence|].
    all: eapply (i_X0 h' z w' seen' h x w seen d blk d2 blk2); eauto; [congruence|lia|].
    all: unfold lt2, key; cbn [fst snd]; rewrite <- Y1, <- Y2; lia.
  - busyt i_F0. pose proof (i_F0 h) as X. rewrite L in X. rewrite Y1. exact X.
  - intros h'. destruct (i_saved0 h') as (A & B). split; [apply blkok_mono; exact A|].
    destruct (N.eq_dec h' h) as [->|Hn]; [|rewrite upd_neq by auto; exact B].
    rewrite upd_eq, KY. exact B.
Qed.

(* --- end of phase 2: decision --------------------------------------------------- *)
Lemma inv_decide c s h x w seen mx : Inv c s -> s_loc s h = Rd P2 x w seen ->
  maj c (read_full c seen) = true ->
  scan2 (d_lver x) (d_mbal x) (map snd seen) = ScanGo mx ->
  Inv c (set_loc s h (Dec x w)).
Proof.
  intros I L MR SC. pose proof (scan2_go _ _ _ _ SC) as SG.
  pose proof (i_loc c s I h) as LO. rewrite L in LO. cbn in LO.
  destruct LO as (LA & LB & (LC1 & LC2) & LD & LE & LF). destruct I.
  set (s' := set_loc s h (Dec x w)).
  assert (CM : forall h' V b v W, comm s' h' V b v W -> comm s h' V b v W \/
             (h' = h /\ V = d_lver x /\ b = d_mbal x /\ v = blk_val x /\ W = w)).
  { intros h' V b v W [H|(z & H & R)]; [left; left; exact H|].
    cbn in H. apply upd_inv in H. destruct H as [[-> H]|[_ H]].
    - injection H as <- <-. right. destruct R as (R1 & R2 & R3). repeat split; congruence.
    - left. right. exists z. auto. }
  assert (GX : good (d_lver x) (d_mbal x) (blk_val x) x) by (right; auto).
  constructor; cbn [s' set_loc s_disk s_loc s_last s_gen s_props s_recs s_saved s_floor].
  - exact i_blk0.
  - exact i_last0.
  - exact i_mono0.
  - exact i_props0.
  - exact i_uniq0.
  - intros h'. destruct (N.eq_dec h' h) as [->|Hn]; [|rewrite upd_neq by auto; apply i_loc0].
    rewrite upd_eq. cbn. auto 10.
  - intros h' V b v W H. apply CM in H. destruct H as [H|(-> & -> & -> & -> & ->)]; [eauto|].
    split; [auto|]. split; [auto|]. split.
    + intros d Hd _. eapply simv_good; [apply LD; exact Hd|exact GX].
    + rewrite <- LA. exact GX.
  - intros h' V b v W r y wr seen' d blk H HR E1 E2 HW Hin.
    apply upd_inv in HR. destruct HR as [[_ HR]|[Hn HR]]; [discriminate|].
    apply CM in H. destruct H as [H|(-> & -> & -> & -> & ->)]; [eauto|].
    pose proof (i_loc0 r) as LR. rewrite HR in LR. cbn in LR.
    destruct LR as (RA & (RB1 & RB2 & _) & RC & RD & RE & RF).
    destruct (maj_meet c _ _ RE MR) as (d' & Dn & Dw & Dr).
    destruct (read_full_in c seen d' r Dr RB1 RB2) as (blk' & Hblk').
    eapply (i_X0 h x w seen r y wr seen' d' blk' d blk); eauto.
    destruct (SG blk') as [S|S]; [apply in_map_iff; exists (d', r, blk'); auto|left|right]; cbn; lia.
  - intros h' V b v W p H Hp E1 E2. apply CM in H.
    destruct H as [H|(-> & -> & -> & -> & ->)]; [eauto|].
    destruct (N.eq_dec (p_bal p) (d_mbal x)) as [E|E].
    { destruct LC2 as (p1 & Q & Q1 & Q2 & Q3 & Q4).
      assert (X : p = p1) by (apply i_uniq0; auto; congruence). subst p. exact Q3. }
    destruct (i_Z0 _ _ _ _ L) as [A|(p1 & Q & Q1 & Q2 & Q3)]; [apply A; auto; lia|].
    exfalso. destruct (i_props0 p1 Q) as (P1' & _ & (X1 & X2 & _) & _).
    destruct (maj_meet c _ _ P1' MR) as (d' & Dn & Dw & Dr).
    destruct (read_full_in c seen d' (p_host p1) Dr X1 X2) as (blk & Hblk).
    pose proof (Q3 d' blk Dw Hblk) as G. unfold le2, key in G. cbn in G.
    destruct (SG blk) as [S|S]; [apply in_map_iff; exists (d', p_host p1, blk); auto| |]; lia.
  - intros h' z w' seen' r z' wr seenr d' blk d'' blk2 H HR.
    apply upd_inv in H. destruct H as [[_ H]|[_ H]]; [discriminate|].
    apply upd_inv in HR. destruct HR as [[_ HR]|[_ HR]]; [discriminate|]. eauto.
  - intros h' y w' seen' H. apply upd_inv in H. destruct H as [[_ H]|[_ H]]; [discriminate|].
    apply i_Z0 in H. exact H.
  - busyt i_F0. pose proof (i_F0 h) as X. rewrite L in X. exact X.
  - exact i_saved0.
Qed.

(* --- recording ------------------------------------------------------------------- *)
Lemma inv_rec c s h x w : Inv c s -> s_loc s h = Dec x w ->
  Inv c (mkS (s_disk s) (upd (s_loc s) h Idle) (s_last s) (s_gen s) (s_props s)
             (mkR h (d_lver x) (d_mbal x) (blk_val x) w :: s_recs s) (s_starts s)
             (s_saved s) (s_floor s)).
Proof.
  intros I L. destruct I.
  set (s' := mkS _ _ _ _ _ _ _ _ _).
  assert (CM : forall h' V b v W, comm s' h' V b v W -> comm s h' V b v W).
  { intros h' V b v W [[H|H]|(z & H & R)].
    - injection H as <- <- <- <- <-. right. exists x. auto.
    - left. exact H.
    - cbn in H. apply upd_inv in H. destruct H as [[_ H]|[_ H]]; [discriminate|].
      right. exists z. auto. }
  constructor; cbn [s' s_disk s_loc s_last s_gen s_props s_recs s_saved s_floor].
  - exact i_blk0.
  - exact i_last0.
  - exact i_mono0.
  - exact i_props0.
  - exact i_uniq0.
  - intros h'. destruct (N.eq_dec h' h) as [->|Hn]; [rewrite upd_eq; exact Logic.I|].
    rewrite upd_neq by auto. apply i_loc0.
  - intros h' V b v W H. apply CM in H. apply i_comm0 in H. exact H.
  - intros h' V b v W r y wr seen d' blk H HR. apply CM in H.
    apply upd_inv in HR. destruct HR as [[_ HR]|[_ HR]]; [discriminate|]. eauto.
  - intros h' V b v W q H. apply CM in H. eauto.
  - intros h' y w' seen r z wr seenr d' blk d'' blk2 H HR.
    apply upd_inv in H. destruct H as [[_ H]|[_ H]]; [discriminate|].
    apply upd_inv in HR. destruct HR as [[_ HR]|[_ HR]]; [discriminate|]. eauto.
  - intros h' y w' seen H. apply upd_inv in H. destruct H as [[_ H]|[_ H]]; [discriminate|].
    apply i_Z0 in H. exact H.
  - busyt i_F0. exact Logic.I.
  - exact i_saved0.
Qed.

Lemma same_blk_simv x y : same_blk x y = true -> simv x y.
Proof.
  intros H. unfold same_blk in H. repeat (apply andb_prop in H; destruct H as [H ?]).
  repeat match goal with X : (_ =? _) = true |- _ => apply N.eqb_eq in X end.
  unfold simv, blk_val. repeat split; congruence.
Qed.

Lemma inv_saved c s h x : Inv c s -> blkok (s_props s) x h -> le2 (key x) (key (s_last s h)) ->
  Inv c (set_saved s h x).
Proof.
  intros I BK LE. destruct I.
  constructor; cbn [set_saved s_disk s_loc s_last s_gen s_props s_recs s_saved s_floor]; auto.
  intros h'. destruct (N.eq_dec h' h) as [->|Hn]; [rewrite upd_eq; auto|].
  rewrite upd_neq by auto. apply i_saved0.
Qed.

(* --- overwriting a block with an older one ------------------------------------------ *)
Lemma inv_erase c s d h x : Inv c s -> blkok (s_props s) x h -> le2 (key x) (key (s_last s h)) ->
  busy_above s (d_lver (s_last s h)) -> Inv c (raise_floor (set_disk s d h x) h).
Proof.
  intros I BK LE BA. destruct I.
  set (s' := raise_floor (set_disk s d h x) h).
  assert (DK : forall d' h', (h' = h /\ s_disk s' d' h' = x) \/ s_disk s' d' h' = s_disk s d' h').
  { intros d' h'. unfold s', set_disk. cbn.
    destruct (ud_cases (s_disk s) d h x d' h') as [(A & B & C)|(_ & C)]; rewrite C; auto. }
  assert (FL : s_floor s' = N.max (s_floor s) (d_lver (s_last s h))) by reflexivity.
  constructor.
  - intros d' q. destruct (DK d' q) as [[-> ->]| ->]; [exact BK|apply i_blk0].
  - exact i_last0.
  - intros d' h'. change (s_last s' h') with (s_last s h').
    destruct (DK d' h') as [[-> ->]| ->]; [exact LE|apply i_mono0].
  - intros p Hp. destruct (i_props0 p Hp) as (A & B & C & D & E). sps.
    intros d' Hd Hf. rewrite FL in Hf. destruct (DK d' (p_host p)) as [[Eh ->]| ->]; [|apply B; auto; lia].
    rewrite Eh in E. exfalso. unfold le2, key in E. cbn in E. lia.
  - exact i_uniq0.
  - intros h'. specialize (i_loc0 h'). change (s_loc s' h') with (s_loc s h').
    assert (WR : forall y w, y = s_last s h' -> d_lver (s_last s h) < d_lver y ->
                 wrote s h' y w -> wrote s' h' y w).
    { intros y w Ey Hl Hw d' Hd. destruct (DK d' h') as [[-> ->]| ->]; [subst y; lia|auto]. }
    specialize (BA h').
    destruct (s_loc s h'); cbn in *; [exact Logic.I| | | ].
    + destruct i_loc0 as (A & B & C & D). sps.
    + destruct i_loc0 as (A & B & C & D & E). sps.
    + destruct i_loc0 as (A & B & C & D & E). sps.
  - intros h' V b v W H. destruct (i_comm0 _ _ _ _ _ H) as (A & B & C & D).
    sps. intros d' Hd Hf. rewrite FL in Hf.
    destruct (DK d' h') as [[-> ->]| ->]; [|apply C; auto; lia].
    exfalso. destruct D as [D|(D & _)]; lia.
  - exact i_D3.
  - exact i_S0.
  - exact i_X0.
  - exact i_Z0.
  - intros q. specialize (BA q). specialize (i_F0 q). change (s_loc s' q) with (s_loc s q).
    rewrite FL. destruct (s_loc s q); auto; lia.
  - exact i_saved0.
Qed.

Lemma inv_step c s a s' : Inv c s -> disciplined s a -> step c s a = Some s' -> Inv c s'.
Proof.
  intros I D H. destruct a as [h lver mbal gen|h d ok sh|h|h d q|h now|h|h|h|h|h d rel sh|h d]; cbn [step] in H.
  - match type of H with (if ?b then _ else _) = _ => destruct b eqn:E end; [|discriminate].
    injection H as <-. repeat (apply andb_prop in E; destruct E as [E ?]).
    destruct D as (D1 & D2 & D3). apply inv_start; auto.
    + destruct (s_loc s h); try discriminate. reflexivity.
    + unfold hostok. lia.
  - destruct (s_loc s h) as [|p x w|p x w seen|x w] eqn:L; try discriminate.
    destruct (d <? c_disks c)%nat; [|discriminate]. injection H as <-.
    pose proof (i_loc c s I h) as LO. rewrite L in LO. cbn in LO. destruct LO as (LA & _).
    assert (I1 : Inv c (set_disk s d h (with_flags x false sh))).
    { apply inv_wr_disk; [exact I|]. rewrite <- LA. apply simv_with_flags. }
    destruct ok; [|exact I1].
    apply inv_wr_count; [exact I1|exact L|]. cbn. rewrite ud_eq. apply simv_with_flags.
  - destruct (s_loc s h) as [|p x w|p x w seen|x w] eqn:L; try discriminate.
    destruct (maj c (inw w)) eqn:M; [|discriminate]. injection H as <-.
    apply inv_wdone; auto.
  - destruct (s_loc s h) as [|p x w|p x w seen|x w] eqn:L; try discriminate.
    destruct (d <? c_disks c)%nat; [|discriminate]. injection H as <-.
    apply inv_read; auto.
  - destruct (s_loc s h) as [|p x w|p x w seen|x w] eqn:L; try discriminate.
    destruct p.
    + destruct (maj c (read_full c seen)) eqn:M; [|discriminate].
      cbn [andb] in H. destruct (1 <=? now) eqn:NW; [|discriminate].
      destruct (scan1 _ _ _ _) as [| |mx] eqn:SC; injection H as <-; try (apply inv_idle; exact I).
      eapply inv_choose; eauto.
    + destruct (maj c (read_full c seen)) eqn:M; [|discriminate].
      destruct (scan2 _ _ _) as [| |mx] eqn:SC; injection H as <-; try (apply inv_idle; exact I).
      eapply inv_decide; eauto.
  - destruct (s_loc s h) as [|p x w|p x w seen|x w] eqn:L; try discriminate.
    injection H as <-. apply inv_rec; auto.
  - injection H as <-. apply inv_idle; exact I.
  - injection H as <-. apply inv_saved; [exact I|apply (i_last c s I)|apply le2_refl].
  - injection H as <-. apply inv_saved; [exact I|left; auto|].
    unfold le2, key. cbn. lia.
  - destruct (idle (s_loc s h)); [|discriminate]. injection H as <-.
    destruct (same_blk (s_saved s h) (s_last s h)) eqn:SB.
    + apply inv_wr_disk; [exact I|]. apply same_blk_simv in SB.
      destruct SB as (A & B & C & E). repeat split; cbn; auto.
    + destruct D as [D|D]; [congruence|]. apply inv_erase; auto.
      * eapply simv_blkok; [apply simv_with_flags|apply (i_saved c s I)].
      * exact (proj2 (i_saved c s I h)).
  - injection H as <-. apply inv_erase; auto; [left; auto|]. unfold le2, key. cbn. lia.
Qed.

Theorem reach_inv c s : reach c disciplined s -> Inv c s.
Proof.
  induction 1 as [|s a s' R IH D H]; [apply inv_init|eapply inv_step; eauto].
Qed.

Theorem agreement c s r1 r2 : reach c disciplined s ->
  In r1 (s_recs s) -> In r2 (s_recs s) -> r_lver r1 = r_lver r2 -> r_val r1 = r_val r2.
Proof.
  intros R H1 H2 E. apply reach_inv in R.
  assert (W : forall a b, In a (s_recs s) -> In b (s_recs s) -> r_lver a = r_lver b ->
                          r_bal a <= r_bal b -> r_val a = r_val b).
  { intros a b Ha Hb Eab L. destruct a as [h V n v W], b as [h' V' n' v' W']. cbn in *. subst V'.
    destruct (i_comm c s R h' V n' v' W') as (_ & (p & Hp & P1' & P2' & P3' & P4') & _); [left; exact Hb|].
    rewrite <- P3'. symmetry. eapply (i_S c s R h V n v W); eauto; [left; exact Ha|lia]. }
  destruct (N.le_ge_cases (r_bal r1) (r_bal r2)); [auto|symmetry; auto].
Qed.

(* ---- validity: every owner value comes from a started acquire, whatever the
   hosts do ------------------------------------------------------------------- *)
Definition vok (st : list (N * N * N)) (x : dblk) : Prop :=
  d_inp x = 0 \/ (In (d_inp x, d_lver x, d_inp2 x) st /\ d_inp3 x <> 0).

Record VInv (s : st) : Prop := mkV {
  v_disk : forall d h, vok (s_starts s) (s_disk s d h);
  v_last : forall h, vok (s_starts s) (s_last s h);
  v_saved : forall h, vok (s_starts s) (s_saved s h);
  v_loc : forall h, match s_loc s h with
     | Idle => True
     | Wr P1 x _ => In (h, d_lver x, s_gen s h) (s_starts s) /\ vok (s_starts s) x
     | Rd P1 x _ seen => In (h, d_lver x, s_gen s h) (s_starts s) /\ vok (s_starts s) x /\
                         (forall e, In e seen -> vok (s_starts s) (snd e))
     | Wr P2 x _ | Rd P2 x _ _ | Dec x _ => vok (s_starts s) x /\ d_inp x <> 0
     end;
  v_hosts : forall h, match s_loc s h with Idle => True | _ => 1 <= h end;
  v_recs : forall r, In r (s_recs s) ->
     In (fst (fst (r_val r)), r_lver r, snd (fst (r_val r))) (s_starts s) /\ snd (r_val r) <> 0 }.

Lemma vok_mono st e x : vok st x -> vok (e :: st) x.
Proof. intros [H|[H1 H2]]; [left; auto|right; cbn; auto]. Qed.

Lemma vinv_init : VInv init.
Proof. constructor; cbn; auto; try (intros; left; reflexivity); intros ? []. Qed.

Lemma vinv_disk s d h x : VInv s -> vok (s_starts s) x -> VInv (set_disk s d h x).
Proof.
  intros [A B B2 C D E] V. constructor; cbn; auto.
  intros d' h'. destruct (ud_cases (s_disk s) d h x d' h') as [(_ & _ & ->)|(_ & ->)]; auto.
Qed.

Lemma vinv_loc s h l : VInv s ->
  match l with
  | Idle => True
  | Wr P1 x _ => In (h, d_lver x, s_gen s h) (s_starts s) /\ vok (s_starts s) x
  | Rd P1 x _ seen => In (h, d_lver x, s_gen s h) (s_starts s) /\ vok (s_starts s) x /\
                      (forall e, In e seen -> vok (s_starts s) (snd e))
  | Wr P2 x _ | Rd P2 x _ _ | Dec x _ => vok (s_starts s) x /\ d_inp x <> 0
  end ->
  (match l with Idle => True | _ => 1 <= h end) -> VInv (set_loc s h l).
Proof.
  intros [A B B2 C D E] V V2. constructor; cbn; auto.
  - intros h'. destruct (N.eq_dec h' h) as [->|Hn]; [rewrite upd_eq; exact V|].
    rewrite upd_neq by auto. apply C.
  - intros h'. destruct (N.eq_dec h' h) as [->|Hn]; [rewrite upd_eq; exact V2|].
    rewrite upd_neq by auto. apply D.
Qed.

Lemma vinv_step c s a s' : VInv s -> step c s a = Some s' -> VInv s'.
Proof.
  intros I H. assert (I' := I). destruct I as [A B B2 C D E].
  destruct a as [h lver mbal gen|h d ok sh|h|h d q|h now|h|h|h|h|h d rel sh|h d]; cbn [step] in H.
  - match type of H with (if ?b then _ else _) = _ => destruct b eqn:G end; [|discriminate].
    injection H as <-. repeat (apply andb_prop in G; destruct G as [G ?]).
    constructor; cbn [s_disk s_loc s_last s_gen s_props s_recs s_starts s_saved s_floor].
    + intros; apply vok_mono; auto.
    + intros h'. destruct (N.eq_dec h' h) as [->|Hn]; [rewrite upd_eq; left; reflexivity|].
      rewrite upd_neq by auto. apply vok_mono; auto.
    + intros; apply vok_mono; auto.
    + intros h'. destruct (N.eq_dec h' h) as [->|Hn].
      * rewrite !upd_eq. split; [left; reflexivity|left; reflexivity].
      * rewrite !upd_neq by auto. specialize (C h').
        destruct (s_loc s h') as [|[] ? ?|[] ? ? ?|? ?]; cbn in *; auto.
        -- destruct C; auto using vok_mono.
        -- destruct C; auto using vok_mono.
        -- destruct C as (? & ? & ?); auto 6 using vok_mono.
        -- destruct C; auto using vok_mono.
        -- destruct C; auto using vok_mono.
    + intros h'. destruct (N.eq_dec h' h) as [->|Hn]; [rewrite upd_eq; lia|].
      rewrite upd_neq by auto. apply D.
    + intros r Hr. destruct (E r Hr). split; [right; auto|auto].
  - destruct (s_loc s h) as [|p x w|p x w seen|x w] eqn:L; try discriminate.
    destruct (d <? c_disks c)%nat; [|discriminate]. injection H as <-.
    pose proof (C h) as Ch. pose proof (D h) as Dh. rewrite L in Ch, Dh.
    assert (Vx : vok (s_starts s) x) by (destruct p; tauto).
    assert (I1 : VInv (set_disk s d h (with_flags x false sh))) by (apply vinv_disk; auto).
    destruct ok; [|exact I1]. apply vinv_loc; auto.
  - destruct (s_loc s h) as [|p x w|p x w seen|x w] eqn:L; try discriminate.
    destruct (maj c (inw w)) eqn:M; [|discriminate]. injection H as <-.
    pose proof (C h) as Ch. pose proof (D h) as Dh. rewrite L in Ch, Dh.
    apply vinv_loc; auto. destruct p; [|tauto]. destruct Ch; split; [auto|split; [auto|intros ? []]].
  - destruct (s_loc s h) as [|p x w|p x w seen|x w] eqn:L; try discriminate.
    destruct (d <? c_disks c)%nat; [|discriminate]. injection H as <-.
    pose proof (C h) as Ch. pose proof (D h) as Dh. rewrite L in Ch, Dh.
    apply vinv_loc; auto. destruct p; [|tauto]. destruct Ch as (Ca & Cb & Cc); split; [auto|split; [auto|]].
    intros e He. apply in_app_or in He. destruct He as [He|[<-|[]]]; auto. cbn. apply A.
  - destruct (s_loc s h) as [|p x w|p x w seen|x w] eqn:L; try discriminate.
    pose proof (C h) as Ch. pose proof (D h) as Dh. rewrite L in Ch, Dh. destruct p.
    + destruct (maj c (read_full c seen)) eqn:M; [|discriminate].
      cbn [andb] in H. destruct (1 <=? now) eqn:NW; [|discriminate].
      destruct (scan1 _ _ _ _) as [| |mx] eqn:SC; injection H as <-; try (apply vinv_loc; cbn; auto; fail).
      destruct Ch as (Ca & Cb & Cc).
      apply scan1_go in SC. destruct SC as (_ & _ & SC).
      set (y := phase2_blk x mx h (s_gen s h) now).
      assert (Vy : vok (s_starts s) y /\ d_inp y <> 0).
      { unfold y, phase2_blk. destruct (N.eqb_spec (d_inp mx) 0) as [Z|Z].
        - split; [right; split; [exact Ca|cbn; lia]|cbn; lia].
        - split; [right|exact Z]. destruct SC as [->|(S1 & S2 & _)]; [cbn in Z; lia|].
          apply in_map_iff in S1. destruct S1 as (e & Ee & He). specialize (Cc e He). rewrite Ee in Cc.
          destruct Cc as [Cc|[Cc Cd]]; [congruence|]. cbn. rewrite <- S2. auto. }
      constructor; cbn [s_disk s_loc s_last s_gen s_props s_recs s_starts s_saved s_floor]; auto.
      * intros h'. destruct (N.eq_dec h' h) as [->|Hn]; [rewrite upd_eq; tauto|].
        rewrite upd_neq by auto. auto.
      * intros h'. destruct (N.eq_dec h' h) as [->|Hn]; [rewrite upd_eq; exact Vy|].
        rewrite upd_neq by auto. apply C.
      * intros h'. destruct (N.eq_dec h' h) as [->|Hn]; [rewrite upd_eq; exact Dh|].
        rewrite upd_neq by auto. apply D.
    + destruct (maj c (read_full c seen)) eqn:M; [|discriminate].
      destruct (scan2 _ _ _) as [| |mx] eqn:SC; injection H as <-; apply vinv_loc; cbn; auto.
  - destruct (s_loc s h) as [|p x w|p x w seen|x w] eqn:L; try discriminate.
    pose proof (C h) as Ch. rewrite L in Ch. destruct Ch as (Ca & Cb).
    injection H as <-. constructor; cbn [s_disk s_loc s_last s_gen s_props s_recs s_starts s_saved s_floor]; auto.
    + intros h'. destruct (N.eq_dec h' h) as [->|Hn]; [rewrite upd_eq; exact I|].
      rewrite upd_neq by auto. apply C.
    + intros h'. destruct (N.eq_dec h' h) as [->|Hn]; [rewrite upd_eq; exact I|].
      rewrite upd_neq by auto. apply D.
    + intros r [<-|Hr]; auto. cbn. destruct Ca as [Ca|Ca]; [congruence|exact Ca].
  - injection H as <-. apply vinv_loc; auto; exact I.
  - injection H as <-. constructor; cbn; auto. intros h'.
    destruct (N.eq_dec h' h) as [->|Hn]; [rewrite upd_eq; apply B|rewrite upd_neq by auto; auto].
  - injection H as <-. constructor; cbn; auto. intros h'.
    destruct (N.eq_dec h' h) as [->|Hn]; [rewrite upd_eq; left; reflexivity|rewrite upd_neq by auto; auto].
  - destruct (idle (s_loc s h)); [|discriminate]. injection H as <-.
    assert (X : VInv (set_disk s d h (with_flags (s_saved s h) rel sh)))
      by (apply vinv_disk; [exact I'|]; apply B2).
    destruct (same_blk _ _); [exact X|]. destruct X. constructor; auto.
  - injection H as <-.
    assert (X : VInv (set_disk s d h zero_blk)) by (apply vinv_disk; [exact I'|]; left; reflexivity).
    destruct X. constructor; auto.
Qed.

Theorem validity c D s r : reach c D s -> In r (s_recs s) ->
  In (fst (fst (r_val r)), r_lver r, snd (fst (r_val r))) (s_starts s).
Proof.
  intros R X. eapply v_recs; [clear X|exact X]. induction R as [|s a s' R IH Da H]; [apply vinv_init|eapply vinv_step; eauto].
Qed.
