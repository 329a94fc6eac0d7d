(* C76: a registered client gets every event of its lockspace, and nothing else
   (src/lockspace.c:1698-1803, 1881-1938, src/resource.c:2411-2490; model in EventReg.v). *)
From Coq Require Import List ZArith Lia Bool Arith FinFun.
From Verif Require Import EventReg.
Import ListNotations.
Open Scope Z_scope.

(* ------------------------------------------------------------------ *)
(* Spec, over the trace of what happened (oldest first)                *)

(* the registrations (lockspace, descriptor) that are open after a trace; None if a
   descriptor is registered twice, or used or closed while it is not open *)
Definition isd (d : Z) (x : nat * Z) : bool := snd x =? d.
Fixpoint regs (l : list (nat * Z)) (tr : list out) : option (list (nat * Z)) :=
  match tr with
  | [] => Some l
  | OReg id d :: tr => if existsb (isd d) l then None else regs ((id, d) :: l) tr
  | OClose d :: tr => if existsb (isd d) l then regs (filter (fun x => negb (isd d x)) l) tr else None
  | OTook d _ _ :: tr => if existsb (isd d) l then regs l tr else None
  | _ :: tr => regs l tr
  end.

(* the lockspace of the last registration of d and what has happened since then *)
Definition since_step (d : Z) (acc : option (nat * list out)) (x : out) : option (nat * list out) :=
  match x with
  | OReg id d' =>
      if d' =? d then Some (id, [])
      else option_map (fun p => (fst p, snd p ++ [x])) acc
  | _ => option_map (fun p => (fst p, snd p ++ [x])) acc
  end.
Definition since (d : Z) (tr : list out) : option (nat * list out) :=
  fold_left (since_step d) tr None.

Definition got (d : Z) (tr : list out) : list Z :=
  flat_map (fun x => match x with OTook d' ev _ => if d' =? d then [ev] else [] | _ => [] end) tr.
Definition dispatched (id : nat) (tr : list out) : list Z :=
  flat_map (fun x => match x with ODispatch i ev => if (i =? id)%nat then [ev] else [] | _ => [] end) tr.
Definition accepted (tr : list out) : list (nat * Z) :=
  flat_map (fun x => match x with OAccept i ev => [(i, ev)] | _ => [] end) tr.
Definition handled (tr : list out) : list (nat * Z) :=
  flat_map (fun x => match x with ODispatch i ev | ODrop i ev => [(i, ev)] | _ => [] end) tr.
Definition in_hand (s : state) : list (nat * Z) :=
  match st_res s with RIdle => [] | RHas i ev | EventReg.RGot i ev => [(i, ev)] end ++ st_queue s.

(* the kernel takes an event whole or not at all: 80 bytes on a Unix stream socket *)
Definition whole (tr : list out) : Prop := forall d ev n, In (OTook d ev n) tr -> n = 80.

(* the registration of d is in use and the client has its answer *)
Definition replied (s : state) (d : Z) : Prop := st_main s <> MReply d.

Definition C76_stream_statement : Prop :=
  forall enc reply h s tr l id d later,
    (forall ev, length (enc ev) = 80%nat) -> length reply = 32%nat ->
    run h s tr -> whole tr -> regs [] tr = Some l -> In (id, d) l -> replied s d ->
    since d tr = Some (id, later) ->
    client_reads (stream enc reply d later) = map enc (dispatched id later).

Definition C76_lifetime_statement : Prop :=
  forall h s tr a, run h s tr -> step s a <> Some Ub.

(* ------------------------------------------------------------------ *)
(* Lists of spaces                                                     *)

Lemma get_put id sp' id0 l :
  get id0 (put id sp' l) =
    if (id0 =? id)%nat then match get id l with Some _ => Some sp' | None => None end else get id0 l.
Proof.
  unfold put. induction l as [|[i x] l IH]; cbn [map get fst].
  - destruct (id0 =? id)%nat; reflexivity.
  - destruct (Nat.eqb_spec i id) as [->|N]; cbn [get].
    + rewrite (Nat.eqb_sym id id0). destruct (Nat.eqb_spec id0 id); [reflexivity|]. exact IH.
    + rewrite IH. destruct (Nat.eqb_spec i id0) as [->|M].
      * destruct (Nat.eqb_spec id0 id); [congruence|reflexivity].
      * destruct (Nat.eqb_spec id0 id) as [->|]; reflexivity.
Qed.
Lemma get_drop id id0 l : get id0 (drop id l) = if (id0 =? id)%nat then None else get id0 l.
Proof.
  unfold drop. induction l as [|[i x] l IH]; cbn [filter get fst].
  - destruct (id0 =? id)%nat; reflexivity.
  - destruct (Nat.eqb_spec i id) as [->|N]; cbn [negb get].
    + rewrite IH, (Nat.eqb_sym id id0). destruct (Nat.eqb_spec id0 id); reflexivity.
    + rewrite IH. destruct (Nat.eqb_spec i id0) as [->|M]; [|reflexivity].
      destruct (Nat.eqb_spec id0 id); [congruence|reflexivity].
Qed.
Lemma find_name_get name l id :
  NoDup (map fst l) -> find_name name l = Some id ->
  exists sp, get id l = Some sp /\ on_spaces sp = true /\ sp_name sp = name.
Proof.
  induction l as [|[i x] l IH]; cbn [find_name get map fst]; intros ND H; [discriminate|].
  inversion ND as [|? ? NI ND']; subst.
  destruct (on_spaces x && (sp_name x =? name)) eqn:E.
  - injection H as ->. rewrite Nat.eqb_refl. apply andb_prop in E as [E1 E2]. apply Z.eqb_eq in E2. eauto.
  - destruct (IH ND' H) as (sp & G & O & NM). exists sp. split; auto.
    destruct (Nat.eqb_spec i id) as [->|]; auto.
    exfalso. apply NI. clear -G. induction l as [|[j y] l IH]; cbn in *; [discriminate|].
    destruct (Nat.eqb_spec j id); auto.
Qed.
Lemma get_in id l sp : get id l = Some sp -> In id (map fst l).
Proof.
  induction l as [|[j y] l IH]; cbn; [discriminate|]. destruct (Nat.eqb_spec j id); auto.
Qed.
Lemma put_keys id sp l : map fst (put id sp l) = map fst l.
Proof.
  unfold put. rewrite map_map. apply map_ext. intros [i x]. cbn. destruct (Nat.eqb_spec i id); auto.
Qed.

(* descriptor d is registered for space id *)
Definition R (l : list (nat * space)) (id : nat) (d : Z) : Prop :=
  exists sp, get id l = Some sp /\ In d (sp_fds sp) /\ d <> -1.

Lemma R_put l id sp sp' id0 d :
  get id l = Some sp ->
  R (put id sp' l) id0 d <-> (id0 = id /\ In d (sp_fds sp') /\ d <> -1) \/ (id0 <> id /\ R l id0 d).
Proof.
  intros G. unfold R. rewrite get_put, G.
  destruct (Nat.eqb_spec id0 id) as [->|N].
  - split.
    + intros (x & E & I & D). injection E as <-. left. auto.
    + intros [(_ & I & D)|[N _]]; [eauto|congruence].
  - split; intros H; [right; auto|destruct H as [(E & _)|(_ & H)]; [congruence|exact H]].
Qed.

(* ------------------------------------------------------------------ *)
(* The invariant                                                       *)

Definition looked (p : mpc) : option nat :=
  match p with MReg id _ | MRegClean id | MEnd id => Some id | _ => None end.

Record Inv (s : state) : Prop := {
  i_keys : NoDup (map fst (st_spaces s));
  i_next : forall id, In id (map fst (st_spaces s)) -> (id < st_next s)%nat;
  i_len : forall id sp, get id (st_spaces s) = Some sp -> length (sp_fds sp) = MAX_EVENT_FDS;
  i_nd : forall id sp, get id (st_spaces s) = Some sp -> NoDup (filter used (sp_fds sp));
  i_exit : forall id sp, get id (st_spaces s) = Some sp -> sp_exited sp = true ->
             on_spaces sp = false /\ filter used (sp_fds sp) = [];
  i_one : forall id id' d, R (st_spaces s) id d -> R (st_spaces s) id' d -> id = id';
  i_open : forall d, In d (st_open s) <-> exists id, R (st_spaces s) id d;
  i_main : forall id, looked (st_main s) = Some id ->
             exists sp, get id (st_spaces s) = Some sp /\ on_spaces sp = true;
  i_again : forall id, st_main s = MReg id true ->
             exists sp, get id (st_spaces s) = Some sp /\ In (-1) (sp_fds sp) }.

Lemma used_spec d : used d = true <-> d <> -1.
Proof. unfold used. rewrite negb_true_iff, Z.eqb_neq. tauto. Qed.
Lemma in_used d l : In d (filter used l) <-> In d l /\ d <> -1.
Proof. rewrite filter_In, used_spec. tauto. Qed.

Lemma existsb_eq d l : existsb (Z.eqb d) l = true <-> In d l.
Proof.
  rewrite existsb_exists. split.
  - intros (x & I & E). apply Z.eqb_eq in E. now subst.
  - intros I. exists d. split; auto. apply Z.eqb_refl.
Qed.
Lemma in_del d l gone : In d (del l gone) <-> In d l /\ ~ In d gone.
Proof.
  unfold del. rewrite filter_In, negb_true_iff, <- not_true_iff_false, (existsb_eq d gone). reflexivity.
Qed.

(* clean and callbacks only take entries away *)
Definition shrunk (fds fds' gone : list Z) : Prop :=
  length fds' = length fds /\
  filter used fds' = filter (fun d => negb (existsb (Z.eqb d) gone)) (filter used fds) /\
  (forall d, In d gone -> In d fds /\ d <> -1).

Lemma clean_shrunk ans fds :
  shrunk fds (fst (clean ans fds)) (snd (clean ans fds)).
Proof.
  unfold clean, shrunk. cbn [fst snd]. split; [apply map_length|]. split.
  2:{ intros d I. apply filter_In in I as [I E]. apply andb_prop in E as [E _]. apply used_spec in E. auto. }
  assert (X : forall d, In d fds -> used d = true ->
    existsb (Z.eqb d) (filter (fun d => used d && ended (ans d)) fds) = ended (ans d)).
  { intros d I U. destruct (ended (ans d)) eqn:E.
    - apply existsb_eq. apply filter_In. rewrite U, E. auto.
    - apply not_true_iff_false. intros H. apply existsb_eq, filter_In in H as [_ H]. rewrite U, E in H. discriminate. }
  revert X. generalize (filter (fun d => used d && ended (ans d)) fds). intros g.
  induction fds as [|x fds IH]; intros X; [reflexivity|]. cbn [map filter].
  destruct (used x) eqn:U; cbn [andb].
  - cbn [filter]. rewrite (X x (or_introl eq_refl) U).
    destruct (ended (ans x)); cbn [negb]; [change (used (-1)) with false|rewrite U]; rewrite IH; auto;
      intros; apply X; auto; now right.
  - rewrite U. apply IH. intros; apply X; auto; now right.
Qed.

Lemma callbacks_closed ans ev fds :
  closed (snd (callbacks ans ev fds)) =
  filter (fun d => used d && match ans d with SFail => true | _ => false end) fds.
Proof.
  induction fds as [|x fds IH]; [reflexivity|]. cbn [callbacks filter].
  destruct (callbacks ans ev fds) as [f o]. cbn [snd] in IH.
  destruct (used x); cbn [andb]; [|exact IH].
  destruct (ans x); cbn [snd closed flat_map app]; [f_equal|]; exact IH.
Qed.
Lemma callbacks_shrunk ans ev fds :
  shrunk fds (fst (callbacks ans ev fds)) (closed (snd (callbacks ans ev fds))).
Proof.
  rewrite callbacks_closed. unfold shrunk. split; [|split].
  - induction fds as [|x fds IH]; [reflexivity|]. cbn [callbacks].
    destruct (callbacks ans ev fds) as [f o]. cbn [fst] in IH.
    destruct (used x); [destruct (ans x)|]; cbn [fst length]; congruence.
  - assert (X : forall d, In d fds -> used d = true ->
      existsb (Z.eqb d) (filter (fun d => used d && match ans d with SFail => true | _ => false end) fds)
      = match ans d with SFail => true | _ => false end).
    { intros d I U. destruct (ans d) eqn:E.
      - apply existsb_eq. apply filter_In. rewrite U, E. auto.
      - apply not_true_iff_false. intros H. apply existsb_eq, filter_In in H as [_ H]. rewrite U, E in H. discriminate. }
    revert X. generalize (filter (fun d => used d && match ans d with SFail => true | _ => false end) fds). intros g.
    induction fds as [|x fds IH]; intros X; [reflexivity|]. cbn [callbacks].
    assert (Y : filter used (fst (callbacks ans ev fds)) =
                filter (fun d => negb (existsb (Z.eqb d) g)) (filter used fds)).
    { apply IH. intros; apply X; auto; now right. }
    destruct (callbacks ans ev fds) as [f o]. cbn [fst] in Y.
    cbn [filter]. destruct (used x) eqn:U.
    + cbn [filter]. rewrite (X x (or_introl eq_refl) U).
      destruct (ans x); cbn [fst filter negb]; [change (used (-1)) with false|rewrite U]; rewrite Y; reflexivity.
    + cbn [fst filter]. rewrite U. exact Y.
  - intros d I. apply filter_In in I as [I E]. apply andb_prop in E as [E _]. apply used_spec in E. auto.
Qed.
Lemma all_shrunk fds : shrunk fds (map (fun _ => -1) fds) (filter used fds).
Proof.
  unfold shrunk. split; [apply map_length|]. split; [|intros d I; now apply in_used].
  transitivity (@nil Z).
  - induction fds; cbn; auto.
  - symmetry. assert (X : forall d, In d (filter used fds) -> existsb (Z.eqb d) (filter used fds) = true).
    { intros d I. now apply existsb_eq. }
    revert X. generalize (filter used fds) at 2 3. intros g. induction (filter used fds) as [|x l IH]; intros X; [reflexivity|].
    cbn. rewrite X by now left. apply IH. intros; apply X; now right.
Qed.

Lemma shrunk_in fds fds' gone d :
  shrunk fds fds' gone -> d <> -1 -> In d fds' <-> In d fds /\ ~ In d gone.
Proof.
  intros (_ & F & _) D. pose proof (in_used d fds'). rewrite F in H. rewrite filter_In, in_used in H.
  rewrite negb_true_iff in H. destruct (existsb (Z.eqb d) gone) eqn:E.
  - apply existsb_eq in E. intuition congruence.
  - assert (~ In d gone) by (intros I; apply existsb_eq in I; congruence). intuition.
Qed.
Lemma shrunk_nd fds fds' gone : shrunk fds fds' gone -> NoDup (filter used fds) -> NoDup (filter used fds').
Proof. intros (_ & F & _) N. rewrite F. now apply NoDup_filter. Qed.

(* entries are taken away from one space *)
Lemma inv_shrink s id sp sp' gone p r h :
  Inv s -> get id (st_spaces s) = Some sp -> shrunk (sp_fds sp) (sp_fds sp') gone ->
  (on_spaces sp = true -> on_spaces sp' = true) ->
  (sp_exited sp' = true -> on_spaces sp' = false /\ filter used (sp_fds sp') = []) ->
  (forall i, looked p = Some i -> looked (st_main s) = Some i) ->
  (forall i, p = MReg i true -> st_main s = MReg i true \/ (i = id /\ In (-1) (sp_fds sp'))) ->
  Inv (mkS (put id sp' (st_spaces s)) (st_next s) (del (st_open s) gone) (st_queue s) p r h).
Proof.
  intros I G SH OS EX LK AG.
  assert (RR : forall i d, R (put id sp' (st_spaces s)) i d <-> R (st_spaces s) i d /\ (~ In d gone)).
  { intros i d. rewrite (R_put _ _ sp sp' i d G). split.
    - intros [(-> & H & D)|(N & H)].
      + apply (shrunk_in _ _ _ _ SH D) in H as [H1 H2]. split; auto. exists sp. auto.
      + split; auto. intros J. apply SH in J as [J D]. apply N.
        eapply (i_one s I); [exact H|exists sp; auto].
    - intros [H J]. destruct (Nat.eq_dec i id) as [->|N]; [left|right; auto].
      destruct H as (x & E & H & D). rewrite G in E. injection E as <-. split; auto. split; auto.
      apply (shrunk_in _ _ _ _ SH D). auto. }
  constructor; cbn [st_spaces st_next st_open st_main].
  - rewrite put_keys. apply I.
  - intros i J. rewrite put_keys in J. now apply I.
  - intros i x E. rewrite get_put, G in E. destruct (Nat.eqb_spec i id) as [->|N].
    + injection E as <-. destruct SH as (L & _). rewrite L. eapply i_len; eauto.
    + eapply i_len; eauto.
  - intros i x E. rewrite get_put, G in E. destruct (Nat.eqb_spec i id) as [->|N].
    + injection E as <-. eapply shrunk_nd; [exact SH|]. eapply i_nd; eauto.
    + eapply i_nd; eauto.
  - intros i x E X. rewrite get_put, G in E. destruct (Nat.eqb_spec i id) as [->|N].
    + injection E as <-. auto.
    + eapply i_exit; eauto.
  - intros i i' d H H'. apply RR in H as [H _]. apply RR in H' as [H' _]. eapply (i_one s I); eauto.
  - intros d. rewrite in_del, (i_open s I). split.
    + intros [(i & H) J]. exists i. now apply RR.
    + intros (i & H). apply RR in H as [H J]. eauto.
  - intros i L. apply LK in L. destruct (i_main s I i L) as (x & E & O).
    rewrite get_put, G. destruct (Nat.eqb_spec i id) as [->|N]; [|eauto].
    rewrite G in E. injection E as <-. eauto.
  - intros i L. apply AG in L as [L|[-> L]].
    + destruct (i_again s I i L) as (x & E & O). rewrite get_put, G. destruct (Nat.eqb_spec i id) as [->|N]; [|eauto].
      exists sp'. split; auto. rewrite G in E. injection E as <-.
      destruct SH as (LE & F & _). destruct (in_dec Z.eq_dec (-1) (sp_fds sp')) as [|NI]; auto. exfalso.
      assert (A : forall l, ~ In (-1) l -> filter used l = l).
      { clear. induction l as [|x l IH]; intros H; [reflexivity|]. cbn. destruct (used x) eqn:U.
        - f_equal. apply IH. intros J. apply H. now right.
        - exfalso. apply H. left. apply not_true_iff_false in U. rewrite used_spec in U. lia. }
      assert (B : forall (f : Z -> bool) l, (length (filter f l) <= length l)%nat).
      { intros f l. induction l as [|y l IH]; cbn; auto. destruct (f y); cbn; lia. }
      rewrite (A _ NI) in F. apply (f_equal (@length Z)) in F. rewrite LE in F.
      pose proof (B (fun d => negb (existsb (Z.eqb d) gone)) (filter used (sp_fds sp))) as B1.
      assert (C : (length (filter used (sp_fds sp)) < length (sp_fds sp))%nat).
      { clear -O B. revert O. generalize (sp_fds sp). induction l as [|y l IH]; intros O; [destruct O|].
        cbn. destruct O as [->|O]; [change (used (-1)) with false; cbn; pose proof (B used l); lia|].
        apply IH in O. destruct (used y); cbn; lia. }
      lia.
    + rewrite get_put, G, Nat.eqb_refl. eauto.
Qed.

Lemma store_spec d fds fds' : store d fds = Some fds' -> d <> -1 ->
  length fds' = length fds /\
  (forall x, x <> -1 -> In x fds' <-> x = d \/ In x fds) /\
  (~ In d fds -> NoDup (filter used fds) -> NoDup (filter used fds')).
Proof.
  revert fds'. induction fds as [|y fds IH]; cbn [store]; intros fds' H D; [discriminate|].
  destruct (used y) eqn:U.
  - destruct (store d fds) as [f|]; [|discriminate]. injection H as <-.
    destruct (IH f eq_refl D) as (L & M & N). split; [cbn; congruence|]. split.
    + intros x X. cbn [In]. rewrite (M x X). tauto.
    + intros NI ND. cbn [filter] in *. rewrite U in *. inversion ND as [|? ? A B]; subst. constructor.
      * intros J. apply in_used in J as [J J']. apply M in J; auto. destruct J as [->|J].
        -- apply NI. now left.
        -- apply A. now apply in_used.
      * apply N; auto. intros J. apply NI. now right.
  - injection H as <-. apply not_true_iff_false in U. rewrite used_spec in U. assert (y = -1) by lia. subst y.
    split; [reflexivity|]. split.
    + intros x X. cbn [In]. intuition congruence.
    + intros NI ND. cbn [filter] in *. change (used (-1)) with false in ND.
      replace (used d) with true by (symmetry; now apply used_spec).
      constructor; auto. intros J. apply NI. right. now apply in_used in J.
Qed.
Lemma store_none d fds : store d fds = None -> forallb used fds = true.
Proof.
  induction fds as [|y fds IH]; cbn; auto. destruct (used y); [|discriminate].
  destruct (store d fds); [discriminate|]. auto.
Qed.

Lemma inv_init : Inv init.
Proof.
  constructor; cbn; try constructor; try discriminate; try tauto; try (intros; discriminate).
  - intros id id' d (sp & H & _). discriminate H.
  - intros (id & sp & H & _). discriminate H.
Qed.

Ltac same_spaces I :=
  constructor; cbn [st_spaces st_next st_open st_main set_main set_res set_queue hold looked];
  try apply I; intros; try discriminate.

Lemma inv_step s a s' o : Inv s -> step s a = Some (Next s' o) -> Inv s'.
Proof.
  intros I H. destruct a; cbn [step] in H.
  - (* AAdd *) destruct (name_used name (st_spaces s)); [discriminate|]. injection H as <- <-.
    assert (F : forall i d, R ((st_next s, mkSp name OnSpaces false (repeat (-1) MAX_EVENT_FDS)) :: st_spaces s) i d
                <-> R (st_spaces s) i d).
    { intros i d. unfold R. cbn [get]. destruct (Nat.eqb_spec (st_next s) i) as [<-|N]; [|tauto].
      split.
      - intros (x & E & J & D). injection E as <-. cbn in J. intuition congruence.
      - intros (x & E & _). apply get_in in E. apply (i_next s I) in E. lia. }
    constructor; cbn [st_spaces st_next st_open st_main map fst].
    + constructor; [|apply I]. intros J. apply (i_next s I) in J. lia.
    + intros i [<-|J]; [lia|]. apply (i_next s I) in J. lia.
    + intros i x. cbn [get]. destruct (st_next s =? i)%nat; [|apply I]. intros E; injection E as <-. reflexivity.
    + intros i x. cbn [get]. destruct (st_next s =? i)%nat; [|apply I]. intros E; injection E as <-. cbn. constructor.
    + intros i x. cbn [get]. destruct (st_next s =? i)%nat; [|apply I]. intros E; injection E as <-. discriminate.
    + intros i i' d A B. apply F in A, B. eapply (i_one s I); eauto.
    + intros d. rewrite (i_open s I). split; intros (i & J); exists i; now apply F.
    + intros i L. destruct (i_main s I i L) as (x & E & O). exists x. split; auto. cbn [get].
      destruct (Nat.eqb_spec (st_next s) i) as [<-|]; auto. apply get_in in E. apply (i_next s I) in E. lia.
    + intros i L. destruct (i_again s I i L) as (x & E & O). exists x. split; auto. cbn [get].
      destruct (Nat.eqb_spec (st_next s) i) as [<-|]; auto. apply get_in in E. apply (i_next s I) in E. lia.
  - (* AEvent *) destruct (main_idle s && find_id id (st_spaces s)); [|discriminate].
    destruct mem; injection H as <- <-; auto. same_spaces I.
  - (* AMove *) destruct (get id (st_spaces s)) as [sp|] eqn:G; [|discriminate].
    destruct (main_idle s) eqn:M; [|discriminate]. destruct (on_spaces sp) eqn:O; [|discriminate]. injection H as <- <-.
    unfold main_idle in M. destruct (st_main s) eqn:P; try discriminate M.
    assert (F : forall i d, R (put id (mkSp (sp_name sp) OnRem (sp_exited sp) (sp_fds sp)) (st_spaces s)) i d
                <-> R (st_spaces s) i d).
    { intros i d. rewrite (R_put _ _ _ _ _ _ G). cbn [sp_fds]. split.
      - intros [(-> & J & D)|[_ J]]; auto. exists sp; auto.
      - intros J. destruct (Nat.eq_dec i id) as [->|]; [left|right; auto]. destruct J as (x & E & J & D).
        rewrite G in E. injection E as <-. auto. }
    constructor; cbn [upd_space st_spaces st_next st_open st_main]; rewrite ?P; try discriminate.
    + rewrite put_keys. apply I.
    + rewrite put_keys. apply I.
    + intros i x E. rewrite get_put, G in E. destruct (Nat.eqb_spec i id) as [->|]; [injection E as <-; exact (i_len s I id sp G)|eapply i_len; eauto].
    + intros i x E. rewrite get_put, G in E. destruct (Nat.eqb_spec i id) as [->|]; [injection E as <-; exact (i_nd s I id sp G)|eapply i_nd; eauto].
    + intros i x E X. rewrite get_put, G in E. destruct (Nat.eqb_spec i id) as [->|]; [injection E as <-|eapply i_exit; eauto].
      cbn in X. destruct (i_exit s I id sp G X). split; [reflexivity|assumption].
    + intros i i' d A B. apply F in A, B. eapply (i_one s I); eauto.
    + intros d. rewrite (i_open s I). split; intros (i & J); exists i; now apply F.
  - (* AExit *) destruct (get id (st_spaces s)) as [sp|] eqn:G; [|discriminate].
    destruct (negb (on_spaces sp)) eqn:O; [|discriminate]. destruct (negb (sp_exited sp)); [|discriminate]. injection H as <- <-.
    apply (inv_shrink s id sp (mkSp (sp_name sp) (sp_list sp) true (map (fun _ => -1) (sp_fds sp)))
             (filter used (sp_fds sp)) (st_main s) (st_res s) (st_held s) I G (all_shrunk (sp_fds sp))); auto.
    intros _. cbn. apply negb_true_iff in O. split; [exact O|].
    destruct (all_shrunk (sp_fds sp)) as (_ & F & _). clear. induction (sp_fds sp); cbn; auto.
  - (* AFree *) destruct (get id (st_spaces s)) as [sp|] eqn:G; [|discriminate].
    destruct (main_idle s) eqn:M; [|discriminate]. destruct (negb (on_spaces sp)); [|discriminate].
    destruct (sp_exited sp) eqn:X; [|discriminate]. injection H as <- <-.
    unfold main_idle in M. destruct (st_main s) eqn:P; try discriminate M.
    assert (F : forall i d, R (drop id (st_spaces s)) i d <-> R (st_spaces s) i d).
    { intros i d. unfold R. rewrite get_drop. destruct (Nat.eqb_spec i id) as [->|]; [|tauto].
      split; [intros (x & E & _); discriminate E|]. intros (x & E & J & D). rewrite G in E. injection E as <-.
      destruct (i_exit s I id sp G X) as [_ E]. assert (In d (filter used (sp_fds sp))) by now apply in_used.
      rewrite E in H. destruct H. }
    constructor; cbn [st_spaces st_next st_open st_main]; rewrite ?P; try discriminate.
    + unfold drop. pose proof (i_keys s I) as K. clear -K. induction (st_spaces s) as [|[i x] l IH]; cbn in *; auto.
      inversion K; subst. destruct (negb (i =? id)%nat); cbn; auto. constructor; auto.
      intros J. apply H1. apply in_map_iff in J as (y & E & J). apply filter_In in J as [J _]. apply in_map_iff. eauto.
    + intros i J. apply I. unfold drop in J. apply in_map_iff in J as (y & E & J). apply filter_In in J as [J _].
      apply in_map_iff. eauto.
    + intros i x E. rewrite get_drop in E. destruct (i =? id)%nat; [discriminate|]. eapply i_len; eauto.
    + intros i x E. rewrite get_drop in E. destruct (i =? id)%nat; [discriminate|]. eapply i_nd; eauto.
    + intros i x E. rewrite get_drop in E. destruct (i =? id)%nat; [discriminate|]. eapply i_exit; eauto.
    + intros i i' d A B. apply F in A, B. eapply (i_one s I); eauto.
    + intros d. rewrite (i_open s I). split; intros (i & J); exists i; now apply F.
  - (* ARegLook *) destruct (main_idle s); [|discriminate].
    destruct (find_name name (st_spaces s)) as [id|] eqn:F; injection H as <- <-; auto.
    same_spaces I. injection H as <-. destruct (find_name_get _ _ _ (i_keys s I) F) as (x & E & O & _). eauto.
  - (* ARegScan *) destruct (st_main s) eqn:P; try discriminate H.
    destruct (get id (st_spaces s)) as [sp|] eqn:G; [|discriminate].
    destruct ((dup =? -1) || (0 <=? dup) && negb (existsb (Z.eqb dup) (st_open s))) eqn:V; [|discriminate].
    destruct (if dup =? -1 then None else store dup (sp_fds sp)) as [fds'|] eqn:ST.
    + injection H as <- <-. destruct (Z.eqb_spec dup (-1)) as [->|D]; [discriminate ST|].
      cbn [orb] in V. apply andb_prop in V as [_ V]. apply negb_true_iff in V.
      assert (NO : ~ In dup (st_open s)) by (intros J; apply existsb_eq in J; congruence).
      destruct (store_spec _ _ _ ST D) as (L & M & N).
      assert (NF : forall i, ~ R (st_spaces s) i dup).
      { intros i J. apply NO. apply (i_open s I). eauto. }
      assert (F : forall i d, R (put id (set_fds sp fds') (st_spaces s)) i d <->
                  (i = id /\ d = dup) \/ R (st_spaces s) i d).
      { intros i d. rewrite (R_put _ _ _ _ _ _ G). cbn [set_fds sp_fds]. split.
        - intros [(-> & J & E)|[_ J]]; auto. apply M in J; auto. destruct J as [->|J]; auto. right. exists sp; auto.
        - intros [[-> ->]|J].
          + left. split; auto. split; auto. apply M; auto.
          + destruct (Nat.eq_dec i id) as [->|]; [left|right; auto]. destruct J as (x & E & J & D').
            rewrite G in E. injection E as <-. split; auto. split; auto. apply M; auto. }
      constructor; cbn [set_main set_open upd_space st_spaces st_next st_open st_main looked]; try discriminate.
      * rewrite put_keys. apply I.
      * rewrite put_keys. apply I.
      * intros i x E. rewrite get_put, G in E. destruct (Nat.eqb_spec i id) as [->|]; [injection E as <-|].
        -- cbn. rewrite L. eapply i_len; eauto.
        -- eapply i_len; eauto.
      * intros i x E. rewrite get_put, G in E. destruct (Nat.eqb_spec i id) as [->|]; [injection E as <-|].
        -- cbn. apply N; [|eapply i_nd; eauto]. intros J. apply (NF id). exists sp. auto.
        -- eapply i_nd; eauto.
      * intros i x E X. rewrite get_put, G in E. destruct (Nat.eqb_spec i id) as [->|]; [injection E as <-|eapply i_exit; eauto].
        cbn in X. destruct (i_main s I id) as (y & E & O); [rewrite P; reflexivity|].
        rewrite G in E. injection E as <-. destruct (i_exit s I id sp G X) as [O' _]. congruence.
      * intros i i' d A B. apply F in A, B. destruct A as [[-> ->]|A], B as [[-> E]|B]; auto.
        -- destruct (NF _ B).
        -- subst. destruct (NF _ A).
        -- eapply (i_one s I); eauto.
      * intros d. cbn [In]. rewrite (i_open s I). split.
        -- intros [<-|(i & J)]; [exists id|exists i]; apply F; auto.
        -- intros (i & J). apply F in J as [[-> ->]|J]; eauto.
    + destruct retried; injection H as <- <-; same_spaces I.
      injection H as <-. apply (i_main s I). rewrite P. reflexivity.
  - (* ARegClean *) destruct (st_main s) eqn:P; try discriminate H.
    destruct (get id (st_spaces s)) as [sp|] eqn:G; [|discriminate].
    unfold clean_step in H. pose proof (clean_shrunk ans (sp_fds sp)) as SH.
    destruct (clean ans (sp_fds sp)) as [fds' gone] eqn:C. cbn [fst snd] in SH.
    destruct (length gone =? 0)%nat eqn:LG; injection H as <- <-.
    + apply (inv_shrink s id sp (set_fds sp fds') gone MIdle (st_res s) (st_held s) I G SH); auto; try discriminate.
      cbn. intros X. destruct (i_exit s I id sp G X) as [O E]. split; auto.
      destruct SH as (_ & F & _). rewrite F, E. reflexivity.
    + apply (inv_shrink s id sp (set_fds sp fds') gone (MReg id true) (st_res s) (st_held s) I G SH); auto.
      * cbn. intros X. destruct (i_exit s I id sp G X) as [O E]. split; auto.
        destruct SH as (_ & F & _). rewrite F, E. reflexivity.
      * cbn. rewrite P. auto.
      * intros i E. injection E as <-. right. split; auto. cbn.
        unfold clean in C. injection C as <- <-. destruct (filter _ (sp_fds sp)) as [|x g] eqn:FG; [discriminate LG|].
        assert (J : In x (x :: g)) by now left. rewrite <- FG in J. apply filter_In in J as [J E].
        apply in_map_iff. exists x. rewrite E. auto.
  - (* AReply *) destruct (st_main s) eqn:P; try discriminate H. injection H as <- <-. same_spaces I.
  - (* AEndLook *) destruct (main_idle s); [|discriminate].
    destruct (find_name name (st_spaces s)) as [id|] eqn:F; injection H as <- <-; auto.
    same_spaces I. injection H as <-. destruct (find_name_get _ _ _ (i_keys s I) F) as (x & E & O & _). eauto.
  - (* AEndClean *) destruct (st_main s) eqn:P; try discriminate H.
    destruct (get id (st_spaces s)) as [sp|] eqn:G; [|discriminate].
    unfold clean_step in H. pose proof (clean_shrunk ans (sp_fds sp)) as SH.
    destruct (clean ans (sp_fds sp)) as [fds' gone] eqn:C. cbn [fst snd] in SH. injection H as <- <-.
    apply (inv_shrink s id sp (set_fds sp fds') gone MIdle (st_res s) (st_held s) I G SH); auto; try discriminate.
    cbn. intros X. destruct (i_exit s I id sp G X) as [O E]. split; auto.
    destruct SH as (_ & F & _). rewrite F, E. reflexivity.
  - (* APop *) destruct (st_res s); try discriminate. destruct (st_queue s) as [|[i e] q]; [discriminate|].
    injection H as <- <-. same_spaces I.
  - (* ALook *) destruct (st_res s); try discriminate. destruct (find_id id (st_spaces s)); injection H as <- <-; same_spaces I.
  - (* ASend *) destruct (st_res s) eqn:P; try discriminate H.
    destruct (get id (st_spaces s)) as [sp|] eqn:G; [|discriminate].
    pose proof (callbacks_shrunk ans ev (sp_fds sp)) as SH.
    destruct (callbacks ans ev (sp_fds sp)) as [fds' o'] eqn:C. cbn [fst snd] in SH. injection H as <- <-.
    apply (inv_shrink s id sp (set_fds sp fds') (closed o') (st_main s) RIdle (st_held s) I G SH); auto.
    cbn. intros X. destruct (i_exit s I id sp G X) as [O E]. split; auto.
    destruct SH as (_ & F & _). rewrite F, E. reflexivity.
  - (* AWLook *) destruct (st_held s t); [discriminate|].
    destruct (find_name name (st_spaces s)); injection H as <- <-; auto. same_spaces I.
  - (* AWUse *) destruct (st_held s t) as [id|]; [|discriminate].
    destruct (get id (st_spaces s)); [|discriminate]. injection H as <- <-. same_spaces I.
Qed.

Lemma inv_run h s tr : run h s tr -> Inv s.
Proof. induction 1; [apply inv_init|eapply inv_step; eauto]. Qed.

(* ------------------------------------------------------------------ *)
(* Traces                                                              *)

Lemma regs_app a b l : regs l (a ++ b) = match regs l a with Some l' => regs l' b | None => None end.
Proof.
  revert l. induction a as [|x a IH]; intros l; cbn [app regs]; auto.
  destruct x; auto; destruct (existsb (isd d) l); auto.
Qed.

Lemma isd_in d l : existsb (isd d) l = true <-> exists id, In (id, d) l.
Proof.
  rewrite existsb_exists. split.
  - intros ([i x] & I & E). unfold isd in E. cbn in E. apply Z.eqb_eq in E. subst. eauto.
  - intros (i & I). exists (i, d). split; auto. apply Z.eqb_refl.
Qed.

Definition without (gone : list Z) (l : list (nat * Z)) : list (nat * Z) :=
  filter (fun x => negb (existsb (Z.eqb (snd x)) gone)) l.
Lemma in_without gone l id d : In (id, d) (without gone l) <-> In (id, d) l /\ ~ In d gone.
Proof.
  unfold without. rewrite filter_In. cbn [snd].
  rewrite negb_true_iff, <- not_true_iff_false, (existsb_eq d gone). reflexivity.
Qed.
Lemma without_nil l : without [] l = l.
Proof. unfold without. induction l as [|x l IH]; [reflexivity|]. cbn. now f_equal. Qed.
Lemma without_cons d gone l :
  without gone (filter (fun x => negb (isd d x)) l) = without (d :: gone) l.
Proof.
  unfold without, isd. induction l as [|[i x] l IH]; [reflexivity|]. cbn [filter snd existsb].
  destruct (x =? d); cbn [negb orb]; [exact IH|]. cbn [filter snd existsb] in *. rewrite IH.
  destruct (existsb (Z.eqb x) gone); reflexivity.
Qed.

Lemma regs_callbacks ans ev fds : forall l,
  NoDup (filter used fds) -> (forall d, In d (filter used fds) -> exists id, In (id, d) l) ->
  regs l (snd (callbacks ans ev fds)) = Some (without (closed (snd (callbacks ans ev fds))) l).
Proof.
  induction fds as [|x fds IH]; intros l ND H; [cbn; now rewrite without_nil|].
  cbn [callbacks filter] in *. destruct (used x) eqn:U.
  - inversion ND as [|? ? NI ND']; subst.
    assert (J : existsb (isd x) l = true) by (apply isd_in; apply H; now left).
    destruct (ans x).
    + specialize (IH (filter (fun y => negb (isd x y)) l) ND').
      destruct (callbacks ans ev fds) as [f o]. cbn [snd regs closed flat_map app] in *. rewrite J.
      rewrite IH; [now rewrite without_cons|].
      intros d I. destruct (H d (or_intror I)) as (i & K). exists i. apply filter_In. split; auto.
      unfold isd. cbn. apply negb_true_iff, Z.eqb_neq. intros ->. now apply NI.
    + specialize (IH l ND'). destruct (callbacks ans ev fds) as [f o]. cbn [snd regs closed flat_map app] in *. rewrite J.
      apply IH. intros d I. apply H. now right.
  - specialize (IH l ND H). destruct (callbacks ans ev fds) as [f o]. exact IH.
Qed.
Lemma regs_closes gone : forall l,
  NoDup gone -> (forall d, In d gone -> exists id, In (id, d) l) ->
  regs l (map OClose gone) = Some (without gone l).
Proof.
  induction gone as [|x gone IH]; intros l ND H; [cbn; now rewrite without_nil|].
  inversion ND as [|? ? NI ND']; subst. cbn [map regs].
  replace (existsb (isd x) l) with true by (symmetry; apply isd_in; apply H; now left).
  rewrite IH; auto; [now rewrite without_cons|].
  intros d I. destruct (H d (or_intror I)) as (i & K). exists i. apply filter_In. split; auto.
  unfold isd. cbn. apply negb_true_iff, Z.eqb_neq. intros ->. now apply NI.
Qed.

Lemma R_shrink s id sp sp' gone i d :
  Inv s -> get id (st_spaces s) = Some sp -> shrunk (sp_fds sp) (sp_fds sp') gone ->
  R (put id sp' (st_spaces s)) i d <-> R (st_spaces s) i d /\ ~ In d gone.
Proof.
  intros I G SH. rewrite (R_put _ _ sp sp' i d G). split.
  - intros [(-> & H & D)|(N & H)].
    + apply (shrunk_in _ _ _ _ SH D) in H as [H1 H2]. split; auto. exists sp. auto.
    + split; auto. intros J. apply SH in J as [J D]. apply N.
      eapply (i_one s I); [exact H|exists sp; auto].
  - intros [H J]. destruct (Nat.eq_dec i id) as [->|N]; [left|right; auto].
    destruct H as (x & E & H & D). rewrite G in E. injection E as <-. split; auto. split; auto.
    apply (shrunk_in _ _ _ _ SH D). auto.
Qed.

Lemma clean_nd ans fds : NoDup (filter used fds) -> NoDup (snd (clean ans fds)).
Proof.
  intros N. unfold clean. cbn [snd].
  replace (filter (fun d => used d && ended (ans d)) fds) with (filter (fun d => ended (ans d)) (filter used fds)).
  - now apply NoDup_filter.
  - clear N. induction fds as [|x fds IH]; auto. cbn [filter]. destruct (used x); cbn [andb]; auto.
    cbn [filter]. rewrite IH. reflexivity.
Qed.

(* the changes a step can make to the registrations, with its output *)
Inductive effect (s : state) (s' : state) (o : list out) : Prop :=
| eff_same : (forall i d, R (st_spaces s') i d <-> R (st_spaces s) i d) ->
    (forall l, regs l o = Some l) -> closed o = [] ->
    (forall d, got d o = []) -> (forall i, dispatched i o = []) ->
    (forall i d, ~ In (OReg i d) o) -> effect s s' o
| eff_clean id sp gone o' :
    get id (st_spaces s) = Some sp -> NoDup gone -> o = map OClose gone ++ o' ->
    (forall d, In d gone -> R (st_spaces s) id d) ->
    (forall i d, R (st_spaces s') i d <-> R (st_spaces s) i d /\ ~ In d gone) ->
    (forall x, In x o' -> exists rv, x = ORegRv rv \/ x = OEndRv rv) -> effect s s' o
| eff_reg id d :
    o = [OReg id d; ORegRv 0] -> (forall i, ~ R (st_spaces s) i d) -> st_main s' = MReply d ->
    (forall i x, R (st_spaces s') i x <-> (i = id /\ x = d) \/ R (st_spaces s) i x) -> effect s s' o
| eff_send id sp ev ans :
    get id (st_spaces s) = Some sp ->
    o = ODispatch id ev :: snd (callbacks ans ev (sp_fds sp)) ->
    (forall i d, R (st_spaces s') i d <->
       R (st_spaces s) i d /\ ~ In d (closed (snd (callbacks ans ev (sp_fds sp))))) -> effect s s' o.

Ltac plain := apply eff_same; cbn; intros; try tauto; try reflexivity; try (intuition congruence).

Lemma step_effect s a s' o : Inv s -> step s a = Some (Next s' o) -> effect s s' o.
Proof.
  intros I H. destruct a; cbn [step] in H.
  - destruct (name_used name (st_spaces s)); [discriminate|]. injection H as <- <-. plain.
    unfold R. cbn [get]. destruct (Nat.eqb_spec (st_next s) i) as [<-|N]; [|tauto]. split.
    + intros (x & E & J & D). injection E as <-. cbn in J. intuition congruence.
    + intros (x & E & _). apply get_in in E. apply (i_next s I) in E. lia.
  - destruct (main_idle s && find_id id (st_spaces s)); [|discriminate]. destruct mem; injection H as <- <-; plain.
  - destruct (get id (st_spaces s)) as [sp|] eqn:G; [|discriminate].
    destruct (main_idle s && on_spaces sp); [|discriminate]. injection H as <- <-. plain.
    rewrite (R_put _ _ _ _ _ _ G). cbn [sp_fds]. split.
    + intros [(-> & J & D)|[_ J]]; auto. exists sp; auto.
    + intros J. destruct (Nat.eq_dec i id) as [->|]; [left|right; auto]. destruct J as (x & E & J & D).
      rewrite G in E. injection E as <-. auto.
  - destruct (get id (st_spaces s)) as [sp|] eqn:G; [|discriminate].
    destruct (negb (on_spaces sp) && negb (sp_exited sp)); [|discriminate]. injection H as <- <-.
    eapply (eff_clean s _ _ id sp (filter used (sp_fds sp)) []); eauto.
    + exact (i_nd s I id sp G).
    + now rewrite app_nil_r.
    + intros d J. apply in_used in J as [J D]. exists sp. auto.
    + intros i d. cbn. apply R_shrink with (sp := sp); auto. apply all_shrunk.
    + intros x [].
  - destruct (get id (st_spaces s)) as [sp|] eqn:G; [|discriminate].
    destruct (main_idle s && negb (on_spaces sp) && sp_exited sp) eqn:X; [|discriminate]. injection H as <- <-. plain.
    apply andb_prop in X as [_ X].
    unfold R. rewrite get_drop. destruct (Nat.eqb_spec i id) as [->|]; [|tauto].
    split; [intros (x & E & _); discriminate E|]. intros (x & E & J & D). rewrite G in E. injection E as <-.
    destruct (i_exit s I id sp G X) as [_ E]. assert (Y : In d (filter used (sp_fds sp))) by now apply in_used.
    rewrite E in Y. destruct Y.
  - destruct (main_idle s); [|discriminate].
    destruct (find_name name (st_spaces s)); injection H as <- <-; plain.
  - destruct (st_main s) eqn:P; try discriminate H.
    destruct (get id (st_spaces s)) as [sp|] eqn:G; [|discriminate].
    destruct ((dup =? -1) || (0 <=? dup) && negb (existsb (Z.eqb dup) (st_open s))) eqn:V; [|discriminate].
    destruct (if dup =? -1 then None else store dup (sp_fds sp)) as [fds'|] eqn:ST.
    + injection H as <- <-. destruct (Z.eqb_spec dup (-1)) as [->|D]; [discriminate ST|].
      cbn [orb] in V. apply andb_prop in V as [_ V]. apply negb_true_iff in V.
      assert (NO : ~ In dup (st_open s)) by (intros J; apply existsb_eq in J; congruence).
      destruct (store_spec _ _ _ ST D) as (L & M & N).
      apply (eff_reg s _ _ id dup); auto.
      * intros i J. apply NO. apply (i_open s I). eauto.
      * intros i d. cbn. rewrite (R_put _ _ _ _ _ _ G). cbn [set_fds sp_fds]. split.
        -- intros [(-> & J & E)|[_ J]]; auto. apply M in J; auto. destruct J as [->|J]; auto. right. exists sp; auto.
        -- intros [[-> ->]|J].
           ++ left. split; auto. split; auto. apply M; auto.
           ++ destruct (Nat.eq_dec i id) as [->|]; [left|right; auto]. destruct J as (x & E & J & D').
              rewrite G in E. injection E as <-. split; auto. split; auto. apply M; auto.
    + destruct retried; injection H as <- <-; plain.
  - destruct (st_main s) eqn:P; try discriminate H.
    destruct (get id (st_spaces s)) as [sp|] eqn:G; [|discriminate].
    unfold clean_step in H. pose proof (clean_shrunk ans (sp_fds sp)) as SH.
    pose proof (clean_nd ans (sp_fds sp) (i_nd s I id sp G)) as ND.
    destruct (clean ans (sp_fds sp)) as [fds' gone] eqn:C. cbn [fst snd] in SH, ND.
    destruct (length gone =? 0)%nat eqn:LG; injection H as <- <-.
    + eapply (eff_clean s _ _ id sp gone [ORegRv (- ENOCSI)]); eauto.
      * intros d J. apply SH in J as [J D]. exists sp. auto.
      * intros i d. cbn. apply R_shrink with (sp := sp); auto.
      * intros x [<-|[]]. eauto.
    + eapply (eff_clean s _ _ id sp gone []); eauto.
      * intros d J. apply SH in J as [J D]. exists sp. auto.
      * intros i d. cbn. apply R_shrink with (sp := sp); auto.
      * intros x [].
  - destruct (st_main s) eqn:P; try discriminate H. injection H as <- <-. plain.
  - destruct (main_idle s); [|discriminate].
    destruct (find_name name (st_spaces s)); injection H as <- <-; plain.
  - destruct (st_main s) eqn:P; try discriminate H.
    destruct (get id (st_spaces s)) as [sp|] eqn:G; [|discriminate].
    unfold clean_step in H. pose proof (clean_shrunk ans (sp_fds sp)) as SH.
    pose proof (clean_nd ans (sp_fds sp) (i_nd s I id sp G)) as ND.
    destruct (clean ans (sp_fds sp)) as [fds' gone] eqn:C. cbn [fst snd] in SH, ND. injection H as <- <-.
    eapply (eff_clean s _ _ id sp gone [OEndRv 0]); eauto.
    + intros d J. apply SH in J as [J D]. exists sp. auto.
    + intros i d. cbn. apply R_shrink with (sp := sp); auto.
    + intros x [<-|[]]. eauto.
  - destruct (st_res s); try discriminate. destruct (st_queue s) as [|[i e] q]; [discriminate|].
    injection H as <- <-. plain.
  - destruct (st_res s); try discriminate. destruct (find_id id (st_spaces s)); injection H as <- <-; plain.
  - destruct (st_res s) eqn:P; try discriminate H.
    destruct (get id (st_spaces s)) as [sp|] eqn:G; [|discriminate].
    pose proof (callbacks_shrunk ans ev (sp_fds sp)) as SH.
    destruct (callbacks ans ev (sp_fds sp)) as [fds' o'] eqn:C. cbn [fst snd] in SH. injection H as <- <-.
    apply (eff_send s _ _ id sp ev ans G).
    + now rewrite C.
    + intros i d. rewrite C. cbn. apply R_shrink with (sp := sp); auto.
  - destruct (st_held s t); [discriminate|].
    destruct (find_name name (st_spaces s)); injection H as <- <-; plain.
  - destruct (st_held s t) as [id|]; [|discriminate].
    destruct (get id (st_spaces s)); [|discriminate]. injection H as <- <-. plain.
Qed.

Lemma plain_no_reg o : (forall i d, ~ In (OReg i d) o) -> forall d acc,
  fold_left (since_step d) o acc = option_map (fun p => (fst p, snd p ++ o)) acc.
Proof.
  induction o as [|x o IH]; intros NR d acc; cbn [fold_left].
  - destruct acc as [[i l]|]; cbn; auto. now rewrite app_nil_r.
  - assert (E : since_step d acc x = option_map (fun p => (fst p, snd p ++ [x])) acc).
    { destruct x; try reflexivity. destruct (NR id d0 (or_introl eq_refl)). }
    rewrite E, IH by (intros i d' J; apply (NR i d'); now right).
    destruct acc as [[i l]|]; cbn; auto. now rewrite <- app_assoc.
Qed.

Lemma got_app d a b : got d (a ++ b) = got d a ++ got d b.
Proof. apply flat_map_app. Qed.
Lemma got_cons d x o : got d (x :: o) = got d [x] ++ got d o.
Proof. exact (got_app d [x] o). Qed.
Lemma dispatched_app d a b : dispatched d (a ++ b) = dispatched d a ++ dispatched d b.
Proof. apply flat_map_app. Qed.
Lemma dispatched_cons d x o : dispatched d (x :: o) = dispatched d [x] ++ dispatched d o.
Proof. exact (dispatched_app d [x] o). Qed.

Lemma callbacks_outs ans ev fds x :
  In x (snd (callbacks ans ev fds)) ->
  exists d, In d fds /\ d <> -1 /\ ((ans d = SFail /\ x = OClose d) \/ exists n, ans d = STook n /\ x = OTook d ev n).
Proof.
  induction fds as [|y fds IH]; cbn [callbacks]; [intros []|].
  destruct (callbacks ans ev fds) as [f o]. cbn [snd] in IH.
  destruct (used y) eqn:U.
  - apply used_spec in U. destruct (ans y) eqn:E; cbn [snd]; intros [<-|J].
    + exists y. repeat split; auto. now left.
    + destruct (IH J) as (d & A & B). exists d. split; [now right|exact B].
    + exists y. repeat split; auto; try now left. right. eauto.
    + destruct (IH J) as (d & A & B). exists d. split; [now right|exact B].
  - cbn [snd]. intros J. destruct (IH J) as (d & A & B). exists d. split; [now right|exact B].
Qed.
Lemma got_other ans ev fds d : ~ In d fds -> got d (snd (callbacks ans ev fds)) = [].
Proof.
  intros N. assert (X : forall x, In x (snd (callbacks ans ev fds)) -> forall e n, x <> OTook d e n).
  { intros x J e n ->. apply callbacks_outs in J as (d' & A & _ & [[_ E]|(m & _ & E)]); [discriminate|]. injection E as -> _ _. auto. }
  revert X. generalize (snd (callbacks ans ev fds)). intros o. induction o as [|x o IH]; intros X; [reflexivity|].
  rewrite got_cons, IH by (intros; apply X; now right). rewrite app_nil_r.
  destruct x; auto. cbn. destruct (Z.eqb_spec d0 d); auto. subst. destruct (X _ (or_introl eq_refl) ev0 n eq_refl).
Qed.
Lemma got_callbacks ans ev fds d :
  NoDup (filter used fds) -> In d fds -> d <> -1 -> ~ In d (closed (snd (callbacks ans ev fds))) ->
  got d (snd (callbacks ans ev fds)) = [ev].
Proof.
  induction fds as [|x fds IH]; intros ND I D C; [destruct I|].
  cbn [callbacks filter] in *. destruct (used x) eqn:U.
  - inversion ND as [|? ? NI ND']; subst. pose proof (got_other ans ev fds x) as GO.
    destruct (callbacks ans ev fds) as [f o]. cbn [snd] in *. destruct I as [->|I].
    + assert (E : got d o = []) by (apply GO; intros J; apply NI; now apply in_used).
      destruct (ans d); cbn [snd closed flat_map app got] in *; [destruct C; now left|].
      rewrite Z.eqb_refl. cbn. f_equal. exact E.
    + assert (N : x <> d) by (intros ->; apply NI; now apply in_used).
      destruct (ans x); cbn [snd] in *; rewrite got_cons.
      * apply IH; auto. intros J. apply C. now right.
      * cbn [got flat_map app]. replace (x =? d) with false by (symmetry; now apply Z.eqb_neq). apply IH; auto.
  - apply not_true_iff_false in U. rewrite used_spec in U.
    destruct I as [->|I]; [lia|]. destruct (callbacks ans ev fds) as [f o]. cbn [snd] in *. apply IH; auto.
Qed.
Lemma dispatched_callbacks ans ev fds i : dispatched i (snd (callbacks ans ev fds)) = [].
Proof.
  assert (X : forall x, In x (snd (callbacks ans ev fds)) -> forall j e, x <> ODispatch j e).
  { intros x J j e ->. apply callbacks_outs in J as (d' & A & _ & [[_ E]|(m & _ & E)]); discriminate. }
  revert X. generalize (snd (callbacks ans ev fds)). intros o. induction o as [|x o IH]; intros X; [reflexivity|].
  rewrite dispatched_cons, IH by (intros; apply X; now right). destruct x; auto. destruct (X _ (or_introl eq_refl) id ev0 eq_refl).
Qed.
Lemma closes_plain gone o' :
  (forall x, In x o' -> exists rv, x = ORegRv rv \/ x = OEndRv rv) ->
  (forall d, got d (map OClose gone ++ o') = []) /\ (forall i, dispatched i (map OClose gone ++ o') = []) /\
  (forall i d, ~ In (OReg i d) (map OClose gone ++ o')) /\ (forall l, regs l o' = Some l).
Proof.
  intros H. split; [|split; [|split]].
  - intros d. induction gone as [|x g IH]; [|exact IH]. cbn [map app]. induction o' as [|x o' IH]; auto.
    rewrite got_cons, IH by (intros; apply H; now right). destruct (H x (or_introl eq_refl)) as (rv & [->| ->]); reflexivity.
  - intros d. induction gone as [|x g IH]; [|exact IH]. cbn [map app]. induction o' as [|x o' IH]; auto.
    rewrite dispatched_cons, IH by (intros; apply H; now right). destruct (H x (or_introl eq_refl)) as (rv & [->| ->]); reflexivity.
  - intros i d J. apply in_app_or in J as [J|J].
    + apply in_map_iff in J as (x & E & _). discriminate.
    + destruct (H _ J) as (rv & [E|E]); discriminate.
  - induction o' as [|x o' IH]; intros l; auto. destruct (H x (or_introl eq_refl)) as (rv & [->| ->]); cbn;
      apply IH; intros; apply H; now right.
Qed.

(* the registrations of the trace are the entries of event_fds, and each has been given
   exactly the events dispatched since *)
Definition TI (s : state) (tr : list out) : Prop :=
  exists l, regs [] tr = Some l /\ (forall id d, In (id, d) l <-> R (st_spaces s) id d) /\
    forall id d, In (id, d) l ->
      exists later, since d tr = Some (id, later) /\ got d later = dispatched id later.

Lemma ti_step s a s' o tr : Inv s -> TI s tr -> step s a = Some (Next s' o) -> TI s' (tr ++ o).
Proof.
  intros I (l & RG & EQ & DL) H. pose proof (step_effect s a s' o I H) as E. unfold TI.
  rewrite regs_app, RG. destruct E as [RR RO CL GO DI NR|id sp gone o' G ND EO GI RR PL|id d EO NF MM RR|id sp ev ans G EO RR].
  - exists l. split; [apply RO|]. split.
    + intros i d. rewrite EQ, RR. reflexivity.
    + intros i d J. destruct (DL i d J) as (later & S & V). exists (later ++ o). split.
      * unfold since in *. rewrite fold_left_app, S, plain_no_reg by exact NR. reflexivity.
      * rewrite got_app, dispatched_app, GO, DI, V. reflexivity.
  - subst o. destruct (closes_plain gone o' PL) as (P1 & P2 & P3 & P4).
    rewrite regs_app. rewrite regs_closes; auto.
    2:{ intros d J. exists id. apply EQ. auto. }
    exists (without gone l). split; [apply P4|]. split.
    + intros i d. rewrite in_without, EQ, RR. reflexivity.
    + intros i d J. apply in_without in J as [J NG]. destruct (DL i d J) as (later & S & V).
      exists (later ++ map OClose gone ++ o'). split.
      * unfold since in *. rewrite fold_left_app, S, plain_no_reg by exact P3. reflexivity.
      * rewrite got_app, dispatched_app, P1, P2, V. reflexivity.
  - subst o. cbn [regs].
    assert (X : existsb (isd d) l = false).
    { apply not_true_iff_false. intros J. apply isd_in in J as (i & J). apply EQ in J. now apply NF in J. }
    rewrite X. exists ((id, d) :: l). split; auto. split.
    + intros i x. cbn [In]. rewrite RR, EQ. intuition congruence.
    + intros i x J. unfold since in *. rewrite fold_left_app. cbn [fold_left since_step]. destruct (Z.eqb_spec d x) as [<-|N].
      * destruct J as [J|J]; [injection J as <-|apply EQ in J; now apply NF in J].
        cbn. exists [ORegRv 0]. auto.
      * destruct J as [J|J]; [congruence|]. destruct (DL i x J) as (later & S & V). rewrite S. cbn.
        exists (later ++ [OReg id d] ++ [ORegRv 0]). rewrite app_assoc. split; auto.
        rewrite !got_app, !dispatched_app. cbn. rewrite !app_nil_r. exact V.
  - subst o. cbn [regs]. rewrite regs_callbacks.
    2:{ exact (i_nd s I id sp G). }
    2:{ intros d J. apply in_used in J as [J D]. exists id. apply EQ. exists sp. auto. }
    eexists. split; [reflexivity|]. split.
    + intros i d. rewrite in_without, EQ, RR. reflexivity.
    + intros i d J. apply in_without in J as [J NC]. destruct (DL i d J) as (later & S & V).
      exists (later ++ ODispatch id ev :: snd (callbacks ans ev (sp_fds sp))). split.
      * unfold since in *. rewrite fold_left_app, S, plain_no_reg; [reflexivity|].
        intros j x [K|K]; [discriminate|]. apply callbacks_outs in K as (d' & _ & _ & [[_ K]|(m & _ & K)]); discriminate.
      * rewrite got_app, dispatched_app, V. f_equal. rewrite got_cons, dispatched_cons.
        rewrite dispatched_callbacks, app_nil_r. cbn [got dispatched flat_map app]. rewrite ?app_nil_r. apply EQ in J. destruct (Nat.eqb_spec id i) as [<-|N].
        -- destruct J as (x & GX & K & D). rewrite G in GX. injection GX as <-.
           apply got_callbacks; auto. exact (i_nd s I id sp G).
        -- destruct (in_dec Z.eq_dec d (sp_fds sp)) as [K|K]; [|now apply got_other].
           exfalso. apply N. assert (D : d <> -1) by (destruct J as (x & _ & _ & D); exact D).
           eapply (i_one s I); [|exact J]. exists sp. auto.
Qed.

Lemma ti_run h s tr : run h s tr -> TI s tr.
Proof.
  induction 1 as [|h s tr a s' o RU IH S].
  - exists []. split; [reflexivity|]. split; [|intros ? ? []].
    intros id d. split; [intros []|]. intros (sp & E & _). discriminate E.
  - eapply ti_step; eauto. eapply inv_run; eauto.
Qed.

(* ------------------------------------------------------------------ *)
(* Descriptors: never used or closed while not open, never lost         *)
Theorem C76_descriptors h s tr :
  run h s tr ->
  exists l, regs [] tr = Some l /\
    (forall d, In d (st_open s) <-> exists id, In (id, d) l) /\
    (forall id d, In (id, d) l -> exists sp, get id (st_spaces s) = Some sp /\ In d (sp_fds sp)).
Proof.
  intros RU. destruct (ti_run _ _ _ RU) as (l & RG & EQ & _). exists l. split; auto. split.
  - intros d. rewrite (i_open s (inv_run _ _ _ RU)). split; intros (id & J); exists id; now apply EQ.
  - intros id d J. apply EQ in J as (sp & G & K & _). eauto.
Qed.

(* when the structure of a lockspace is freed, none of its registrations is still open *)
Theorem C76_no_leak h s tr id s' o l d :
  run h s tr -> step s (AFree id) = Some (Next s' o) -> regs [] (tr ++ o) = Some l -> ~ In (id, d) l.
Proof.
  intros RU S RG J.
  destruct (C76_descriptors _ _ _ (run_step _ _ _ _ _ _ RU S)) as (l' & RG' & _ & K).
  rewrite RG in RG'. injection RG' as <-. destruct (K id d J) as (sp & G & _).
  cbn [step] in S. destruct (get id (st_spaces s)) as [x|]; [|discriminate].
  destruct (main_idle s && negb (on_spaces x) && sp_exited x); [|discriminate]. injection S as <- <-.
  cbn [st_spaces] in G. rewrite get_drop, Nat.eqb_refl in G. discriminate.
Qed.

(* a registered client has been given exactly the events dispatched for its lockspace
   since it registered, once each and in order *)
Theorem C76_delivery h s tr l id d :
  run h s tr -> regs [] tr = Some l -> In (id, d) l ->
  exists later, since d tr = Some (id, later) /\ got d later = dispatched id later.
Proof.
  intros RU RG J. destruct (ti_run _ _ _ RU) as (l' & RG' & _ & DL). rewrite RG in RG'. injection RG' as <-. auto.
Qed.

(* events go through the queue in order, none is lost or repeated there *)
Theorem C76_queue h s tr : run h s tr -> accepted tr = handled tr ++ in_hand s.
Proof.
  assert (CB : forall ans ev fds, accepted (snd (callbacks ans ev fds)) = [] /\ handled (snd (callbacks ans ev fds)) = []).
  { intros ans ev fds. induction fds as [|x fds [A B]]; [split; reflexivity|]. cbn [callbacks].
    destruct (callbacks ans ev fds) as [f o]. destruct (used x); [destruct (ans x)|]; cbn in *; auto. }
  assert (CL : forall g o, accepted (map OClose g ++ o) = accepted o /\ handled (map OClose g ++ o) = handled o).
  { intros g o. induction g as [|x g [A B]]; split; auto. }
  assert (CA : forall g o, accepted (map OClose g ++ o) = accepted o) by (intros; apply CL).
  assert (CH : forall g o, handled (map OClose g ++ o) = handled o) by (intros; apply CL).
  unfold in_hand. induction 1 as [|h s tr a s' o RU IH S]; [reflexivity|].
  assert (AA : accepted (tr ++ o) = accepted tr ++ accepted o) by apply flat_map_app.
  assert (HA : handled (tr ++ o) = handled tr ++ handled o) by apply flat_map_app.
  rewrite AA, HA, IH. clear AA HA IH RU.
  destruct a; cbn [step] in S; unfold clean_step in S;
    repeat match type of S with
    | context [match st_res s with _ => _ end] => destruct (st_res s) eqn:?; try discriminate S
    | context [match st_queue s with _ => _ end] => destruct (st_queue s) as [|[]] eqn:?; try discriminate S
    | context [match ?x with Some _ => _ | None => _ end] => destruct x eqn:?; try discriminate S
    | context [match st_main s with _ => _ end] => destruct (st_main s) eqn:?; try discriminate S
    | context [let (_, _) := callbacks ?a ?b ?c in _] => pose proof (CB a b c); destruct (callbacks a b c)
    | context [let (_, _) := clean ?a ?b in _] => destruct (clean a b)
    | context [if ?b then _ else _] => destruct b eqn:?; try discriminate S
    end;
    try (injection S as <- <-);
    rewrite ?CA, ?CH; try (rewrite <- (app_nil_r (map OClose _)), CA, CH);
    cbn [st_res st_queue set_main set_open upd_space set_queue set_res hold accepted handled flat_map app
         st_spaces st_next st_open st_main];
    repeat match goal with H : st_res s = _ |- _ => rewrite H | H : st_queue s = _ |- _ => rewrite H end;
    rewrite ?app_nil_r, ?app_assoc; try reflexivity.
  - rewrite <- !app_assoc. reflexivity.
  - destruct H as [A B]. cbn [snd] in A, B. fold (accepted l0) (handled l0). rewrite A, B, app_nil_r, <- !app_assoc. reflexivity.
Qed.

(* ------------------------------------------------------------------ *)
(* The connection: the reply to the registration, then the events       *)

Definition is_reply (d : Z) (x : out) : bool := match x with OReply d' => d' =? d | _ => false end.
Definition reps (d : Z) (tr : list out) : nat := length (filter (is_reply d) tr).
Lemma reps_app d a b : reps d (a ++ b) = (reps d a + reps d b)%nat.
Proof. unfold reps. rewrite filter_app, app_length. reflexivity. Qed.
Lemma reps_none d o : (forall x, ~ In (OReply x) o) -> reps d o = 0%nat.
Proof.
  intros H. unfold reps. induction o as [|x o IH]; auto. cbn.
  assert (E : is_reply d x = false).
  { destruct x; auto. destruct (H d0 (or_introl eq_refl)). }
  rewrite E. apply IH. intros y J. apply (H y). now right.
Qed.

Lemma step_reply s a s' o :
  step s a = Some (Next s' o) ->
  (exists d, st_main s = MReply d /\ st_main s' = MIdle /\ o = [OReply d]) \/
  ((forall d, ~ In (OReply d) o) /\
   (forall d, st_main s' = MReply d -> st_main s = MReply d \/ exists id, In (OReg id d) o) /\
   (forall d, st_main s = MReply d -> st_main s' = MReply d)).
Proof.
  intros S.
  assert (CB : forall ans ev fds d, ~ In (OReply d) (snd (callbacks ans ev fds))).
  { intros ans ev fds d J. apply callbacks_outs in J as (d' & _ & _ & [[_ E]|(m & _ & E)]); discriminate. }
  assert (CL : forall g o', (forall d, ~ In (OReply d) o') -> forall d, ~ In (OReply d) (map OClose g ++ o')).
  { intros g o' N d J. apply in_app_or in J as [J|J]; [|now apply N in J]. apply in_map_iff in J as (x & E & _). discriminate. }
  destruct a; cbn [step] in S; unfold clean_step, main_idle in S;
    repeat match type of S with
    | context [match st_res s with _ => _ end] => destruct (st_res s) eqn:?; try discriminate S
    | context [match st_queue s with _ => _ end] => destruct (st_queue s) as [|[]] eqn:?; try discriminate S
    | context [match st_main s with _ => _ end] => destruct (st_main s) eqn:?; try discriminate S
    | context [match ?x with Some _ => _ | None => _ end] => destruct x eqn:?; try discriminate S
    | context [let (_, _) := callbacks ?a ?b ?c in _] => pose proof (CB a b c); destruct (callbacks a b c)
    | context [let (_, _) := clean ?a ?b in _] => destruct (clean a b)
    | context [if ?b then _ else _] => destruct b eqn:?; try discriminate S
    end; cbn [andb] in *; try discriminate;
    try (injection S as <- <-);
    cbn [st_res st_queue set_main set_open upd_space set_queue set_res hold st_spaces st_next st_open st_main];
    try (left; eexists; repeat split; eassumption || reflexivity);
    right; (split; [|split]);
    try (rewrite ?Heqm; intros; discriminate); try (rewrite ?Heqm; intros; assumption); auto;
    try (apply CL; intros ? K; cbn in K; intuition discriminate);
    try (intros ? K; cbn in K; intuition discriminate).
  - intros x K. apply in_map_iff in K as (y & E & _). discriminate.
  - intros x E. injection E as ->. right. exists id. now left.
  - intros x [K|K]; [discriminate|]. eapply H. exact K.
Qed.
Lemma callbacks_no_reg ans ev fds i d : ~ In (OReg i d) (snd (callbacks ans ev fds)).
Proof. intros J. apply callbacks_outs in J as (d' & _ & _ & [[_ E]|(m & _ & E)]); discriminate. Qed.

Lemma step_regs s a s' o : Inv s -> step s a = Some (Next s' o) ->
  (forall i d, ~ In (OReg i d) o) \/
  exists id d r, o = [OReg id d; ORegRv 0] /\ st_main s = MReg id r /\ st_main s' = MReply d.
Proof.
  intros I S. destruct (step_effect s a s' o I S) as [_ _ _ _ _ NR|id sp gone o' _ _ EO _ _ PL|id d EO _ MM _|id sp ev ans _ EO _].
  - now left.
  - left. intros i d J. rewrite EO in J. apply in_app_or in J as [J|J].
    + apply in_map_iff in J as (x & E & _). discriminate.
    + destruct (PL _ J) as (rv & [E|E]); discriminate.
  - right. assert (X : exists r, st_main s = MReg id r).
    { destruct (step_reply s a s' o S) as [(x & _ & _ & E)|(_ & H & _)]; [congruence|].
      destruct a; cbn [step] in S; unfold clean_step, main_idle in S;
      repeat match type of S with
      | context [match st_res s with _ => _ end] => destruct (st_res s) eqn:?; try discriminate S
      | context [match st_queue s with _ => _ end] => destruct (st_queue s) as [|[]] eqn:?; try discriminate S
      | context [match st_main s with _ => _ end] => destruct (st_main s) eqn:?; try discriminate S
      | context [match ?x with Some _ => _ | None => _ end] => destruct x eqn:?; try discriminate S
      | context [let (_, _) := callbacks ?a ?b ?c in _] => destruct (callbacks a b c)
      | context [let (_, _) := clean ?a ?b in _] => destruct (clean a b)
      | context [if ?b then _ else _] => destruct b eqn:?; try discriminate S
      end; cbn [andb] in *; try discriminate;
      injection S as SS SO; rewrite <- SO in EO; subst s'; try discriminate EO;
      cbn [set_main set_open upd_space set_res set_queue hold st_main] in MM;
      try discriminate MM; try congruence;
      try (injection EO as -> _; eauto).
      all: try (destruct (H d MM) as [E|(i & J)]; [congruence|]; cbn in J; intuition congruence).
      destruct (filter used (sp_fds s0)); discriminate EO. }
    destruct X as (r & E). exists id, d, r. auto.
  - left. intros i d J. rewrite EO in J. destruct J as [J|J]; [discriminate|].
    now apply callbacks_no_reg in J.
Qed.

Definition RI (s : state) (tr : list out) : Prop :=
  forall d id later, since d tr = Some (id, later) ->
    (st_main s = MReply d /\ reps d later = 0%nat) \/ (st_main s <> MReply d /\ reps d later = 1%nat).

Lemma ri_run h s tr : run h s tr -> RI s tr.
Proof.
  induction 1 as [|h s tr a s' o RU IH S]; [intros d id later H; discriminate|].
  intros d id later H. unfold since in H. rewrite fold_left_app in H. fold (since d tr) in H.
  destruct (step_regs s a s' o (inv_run _ _ _ RU) S) as [NR|(i & x & r & -> & M & M')].
  - rewrite plain_no_reg in H by exact NR. destruct (since d tr) as [[i l]|] eqn:E; [|discriminate].
    injection H as <- <-. specialize (IH d i l E). rewrite reps_app.
    destruct (step_reply s a s' o S) as [(x & M & M' & ->)|(NO & EN & ST)].
    + rewrite M, M' in *. right. split; [discriminate|]. unfold reps at 2. cbn [filter is_reply].
      destruct (Z.eqb_spec x d) as [->|N]; cbn [length].
      * destruct IH as [[_ ->]|[B _]]; [reflexivity|congruence].
      * destruct IH as [[B _]|[_ ->]]; [congruence|reflexivity].
    + rewrite (reps_none d o NO), Nat.add_0_r. destruct IH as [[A B]|[A B]].
      * left. auto.
      * right. split; auto. intros C. destruct (EN d C) as [D|(j & D)]; [auto|now apply NR in D].
  - cbn [fold_left since_step] in H. destruct (Z.eqb_spec x d) as [->|N].
    + injection H as <- <-. left. auto.
    + destruct (since d tr) as [[j l]|] eqn:E; [|discriminate]. cbn in H. injection H as <- <-.
      destruct (IH d j l E) as [[A _]|[_ B]]; [congruence|]. right. split; [congruence|].
      rewrite !reps_app, B. reflexivity.
Qed.

Lemma stream_app enc reply d a b : stream enc reply d (a ++ b) = stream enc reply d a ++ stream enc reply d b.
Proof.
  induction a as [|x a IH]; auto. destruct x; cbn [app stream]; rewrite ?IH; auto; now rewrite app_assoc.
Qed.
Lemma stream_got enc reply d tr :
  (forall ev, length (enc ev) = 80%nat) -> whole tr -> reps d tr = 0%nat ->
  stream enc reply d tr = concat (map enc (got d tr)).
Proof.
  intros LE. induction tr as [|x tr IH]; intros W RP; auto.
  assert (W' : whole tr) by (intros d' ev n J; apply (W d' ev n); now right).
  change (x :: tr) with ([x] ++ tr) in RP. rewrite reps_app in RP.
  rewrite got_cons, map_app, concat_app, <- IH by (auto; lia).
  destruct x; try reflexivity; cbn [stream].
  - f_equal. unfold got. cbn [flat_map]. destruct (d0 =? d); auto. cbn.
    rewrite (W d0 ev n (or_introl eq_refl)), app_nil_r. apply firstn_all2. rewrite LE. apply Nat.le_refl.
  - unfold reps in RP. cbn [filter is_reply] in RP. destruct (d0 =? d); [cbn in RP; lia|reflexivity].
Qed.
Lemma get_events_all (enc : Z -> list Z) : (forall ev, length (enc ev) = 80%nat) -> forall evs fuel,
  (length evs <= fuel)%nat -> get_events fuel (concat (map enc evs)) = map enc evs.
Proof.
  intros LE evs. induction evs as [|e evs IH]; intros fuel F.
  - destruct fuel; reflexivity.
  - destruct fuel as [|fuel]; [cbn in F; lia|]. cbn [map concat get_events length] in *.
    rewrite app_length, LE. destruct (Nat.ltb_spec (80 + length (concat (map enc evs))) 80); [lia|].
    f_equal.
    + rewrite firstn_app, LE, Nat.sub_diag, firstn_O, app_nil_r. apply firstn_all2. rewrite LE. apply Nat.le_refl.
    + rewrite skipn_app, LE, Nat.sub_diag. rewrite skipn_all2 by (rewrite LE; apply Nat.le_refl).
      cbn [skipn app]. apply IH. lia.
Qed.
Lemma reps_split d tr : reps d tr = 1%nat ->
  exists pre post, tr = pre ++ OReply d :: post /\ reps d pre = 0%nat /\ reps d post = 0%nat.
Proof.
  induction tr as [|x tr IH]; intros H; [discriminate|]. unfold reps in H. cbn [filter] in H.
  destruct (is_reply d x) eqn:E.
  - destruct x; try discriminate E. cbn in E. apply Z.eqb_eq in E as ->. cbn in H. exists [], tr. unfold reps. cbn. auto.
  - destruct (IH H) as (pre & post & -> & A & B). exists (x :: pre), post. split; auto. split; auto.
    unfold reps in *. cbn [filter]. now rewrite E.
Qed.

(* the client reads the reply and then exactly the events dispatched for its lockspace
   since its registration, if no event is sent to it before the reply; without this see
   C76_stream_refuted *)
Theorem C76_stream_partial enc reply h s tr l id d later :
  (forall ev, length (enc ev) = 80%nat) -> length reply = 32%nat ->
  run h s tr -> whole tr -> regs [] tr = Some l -> In (id, d) l -> replied s d ->
  since d tr = Some (id, later) ->
  (forall pre post, later = pre ++ OReply d :: post -> got d pre = []) ->
  firstn 32 (stream enc reply d later) = reply /\
  client_reads (stream enc reply d later) = map enc (dispatched id later).
Proof.
  intros LE LR RU W RG J RP SI FI.
  destruct (ri_run _ _ _ RU d id later SI) as [[A _]|[_ A]]; [contradiction|].
  destruct (C76_delivery _ _ _ _ _ _ RU RG J) as (later' & SI' & DL). rewrite SI in SI'. injection SI' as <-.
  destruct (reps_split d later A) as (pre & post & EQ & A1 & A2).
  assert (WL : whole later).
  { intros d' ev n K. apply (W d' ev n). clear -SI K. revert K.
    assert (G : forall t acc id later, fold_left (since_step d) t acc = Some (id, later) ->
      forall x, In x later -> In x t \/ exists i l, acc = Some (i, l) /\ In x l).
    { induction t as [|y t IH]; intros acc i lt E x K.
      - right. cbn in E. eauto.
      - cbn [fold_left] in E. destruct (IH _ _ _ E x K) as [IN|(i' & l' & EA & IN)]; [left; now right|].
        assert (C : since_step d acc y = Some (i', l') -> In x l' -> In x (y :: t) \/ exists i l, acc = Some (i, l) /\ In x l).
        { clear. intros EA IN. unfold since_step in EA.
          destruct y; try (destruct acc as [[i2 l2]|]; [|discriminate]; cbn in EA; injection EA as <- <-;
            apply in_app_or in IN as [IN|[<-|[]]]; [right; eauto|left; now left]).
          destruct (d0 =? d); [injection EA as <- <-; destruct IN|].
          destruct acc as [[i2 l2]|]; [|discriminate]; cbn in EA; injection EA as <- <-;
            apply in_app_or in IN as [IN|[<-|[]]]; [right; eauto|left; now left]. }
        auto. }
    intros K. destruct (G tr None id later SI _ K) as [IN|(i & l2 & E & _)]; [exact IN|discriminate]. }
  assert (W1 : whole pre) by (intros d' ev n K; apply (WL d' ev n); rewrite EQ; apply in_or_app; auto).
  assert (W2 : whole post) by (intros d' ev n K; apply (WL d' ev n); rewrite EQ; apply in_or_app; right; now right).
  assert (ST : stream enc reply d later = reply ++ concat (map enc (dispatched id later))).
  { rewrite <- DL. rewrite EQ. rewrite stream_app. cbn [stream]. rewrite Z.eqb_refl.
    rewrite (stream_got enc reply d pre LE W1 A1), (stream_got enc reply d post LE W2 A2).
    rewrite got_app, (FI pre post EQ). rewrite (got_cons d (OReply d) post). reflexivity. }
  rewrite ST. unfold client_reads. rewrite firstn_app, skipn_app, LR, Nat.sub_diag, firstn_O, app_nil_r.
  rewrite skipn_all2 by (rewrite LR; apply Nat.le_refl). rewrite firstn_all2 by (rewrite LR; apply Nat.le_refl).
  cbn [skipn app]. split; auto. apply get_events_all; auto. rewrite app_length.
  assert (Q : forall evs, (length evs <= length (concat (map enc evs)))%nat).
  { clear -LE. induction evs as [|e evs IH]; cbn; [auto|]. rewrite app_length, LE. lia. }
  specialize (Q (dispatched id later)). lia.
Qed.

(* ------------------------------------------------------------------ *)
(* Witnesses are played out                                            *)
Fixpoint play (s : state) (acts : list action) : option (state * list out) :=
  match acts with
  | [] => Some (s, [])
  | a :: acts =>
      match step s a with
      | Some (Next s' o) =>
          match play s' acts with Some (s2, o2) => Some (s2, o ++ o2) | None => None end
      | _ => None
      end
  end.
Lemma play_run acts : forall h s tr s' o, run h s tr -> play s acts = Some (s', o) -> run (h ++ acts) s' (tr ++ o).
Proof.
  induction acts as [|a acts IH]; intros h s tr s' o RU P; cbn [play] in P.
  - injection P as <- <-. now rewrite !app_nil_r.
  - destruct (step s a) as [[|s1 o1]|] eqn:S; try discriminate.
    destruct (play s1 acts) as [[s2 o2]|] eqn:E; [|discriminate]. injection P as <- <-.
    pose proof (IH (h ++ [a]) s1 (tr ++ o1) s2 o2 (run_step _ _ _ _ _ _ RU S) E) as Q.
    rewrite <- !app_assoc in Q. exact Q.
Qed.

(* the resource thread sends an event between the registration and its reply: the client
   takes the event for the reply and then reads an event that nobody sent *)
Theorem C76_stream_refuted : ~ C76_stream_statement.
Proof.
  intros H.
  pose (acts := [AAdd 5; AEvent 1 7 true; APop; ALook; ARegLook 5; ARegScan 10; ASend (fun _ => STook 80); AReply]).
  destruct (play init acts) as [[s o]|] eqn:P; [|vm_compute in P; discriminate].
  pose proof (play_run acts [] init [] s o run_init P) as RU.
  assert (O : o = [OAccept 1 7; OReg 1 10; ORegRv 0; ODispatch 1 7; OTook 10 7 80; OReply 10]).
  { vm_compute in P. injection P as _ <-. reflexivity. }
  assert (M : st_main s = MIdle) by (vm_compute in P; injection P as <- _; reflexivity).
  clear P. subst o.
  specialize (H (fun ev => repeat ev 80) (repeat 0 32) ([] ++ acts) s _ [(1%nat, 10)] 1%nat 10
    [ORegRv 0; ODispatch 1 7; OTook 10 7 80; OReply 10]
    (fun ev => repeat_length ev 80) (repeat_length 0 32) RU).
  assert (X : client_reads (stream (fun ev => repeat ev 80) (repeat 0 32) 10
      [ORegRv 0; ODispatch 1 7; OTook 10 7 80; OReply 10]) = [repeat 7 80]).
  { apply H; [|reflexivity|now left|unfold replied; rewrite M; discriminate|reflexivity].
    intros d ev n K. cbn in K. intuition congruence. }
  vm_compute in X. discriminate.
Qed.

(* ------------------------------------------------------------------ *)
(* The life of the structure                                           *)
Lemma play_ub acts a s o : play init acts = Some (s, o) -> step s a = Some Ub -> ~ C76_lifetime_statement.
Proof.
  intros P S H. exact (H _ _ _ a (play_run acts [] init [] s o run_init P) S).
Qed.
(* the lockspace is removed and freed while the resource thread has found it and not yet
   taken its mutex; the same for a worker thread in set_event *)
Theorem C76_lifetime_refuted : ~ C76_lifetime_statement.
Proof.
  apply (play_ub [AAdd 5; AEvent 1 7 true; APop; ALook; AMove 1; AExit 1; AFree 1] (ASend (fun _ => STook 80)) _ _ eq_refl).
  reflexivity.
Qed.
Theorem C76_lifetime_worker_refuted :
  exists h s tr t, run h s tr /\ (forall ev id, st_res s <> EventReg.RGot id ev) /\ step s (AWUse t) = Some Ub.
Proof.
  exists [AAdd 5; AWLook 3 5; AMove 1; AExit 1; AFree 1]. do 2 eexists. exists 3%nat. split; [|split].
  - apply (play_run [AAdd 5; AWLook 3 5; AMove 1; AExit 1; AFree 1] [] init [] _ _ run_init eq_refl).
  - intros ev id. discriminate.
  - reflexivity.
Qed.

(* what is known about the spaces from the actions *)
Definition known (s : state) (id : nat) : Prop := (1 <= id < st_next s)%nat.
Record HI (h : list action) (s : state) : Prop := {
  h_next : (1 <= st_next s)%nat;
  h_keys : forall id sp, get id (st_spaces s) = Some sp -> known s id;
  h_moved : forall id sp, get id (st_spaces s) = Some sp -> on_spaces sp = false -> In (AMove id) h;
  h_freed : forall id, known s id -> get id (st_spaces s) = None -> In (AMove id) h /\ In (AFree id) h;
  h_queue : forall id ev, In (id, ev) (st_queue s) -> known s id;
  h_res : forall id ev, st_res s = RHas id ev \/ st_res s = EventReg.RGot id ev -> known s id;
  h_held : forall t id, st_held s t = Some id -> known s id }.

Lemma put_keep id sp' id0 l sp0 :
  get id0 (put id sp' l) = Some sp0 -> (id0 = id /\ sp0 = sp') \/ get id0 l = Some sp0.
Proof.
  rewrite get_put. destruct (Nat.eqb_spec id0 id) as [->|]; auto.
  destruct (get id l); [|discriminate]. intros E. injection E as <-. auto.
Qed.
Lemma put_none id sp' id0 l : get id0 (put id sp' l) = None -> get id0 l = None.
Proof.
  rewrite get_put. destruct (Nat.eqb_spec id0 id) as [->|]; auto. destruct (get id l); auto. discriminate.
Qed.

Lemma hi_put h a s id sp sp' op m r q hd :
  HI h s -> get id (st_spaces s) = Some sp ->
  (sp_list sp' = sp_list sp \/ a = AMove id) ->
  (forall i ev, In (i, ev) q -> known s i) ->
  (forall i ev, r = RHas i ev \/ r = EventReg.RGot i ev -> known s i) ->
  (forall t i, hd t = Some i -> known s i) ->
  HI (h ++ [a]) (mkS (put id sp' (st_spaces s)) (st_next s) op q m r hd).
Proof.
  intros [N K MV FR QU RE HE] G L Q1 R1 H1.
  constructor; cbn [st_next st_spaces st_queue st_res st_held]; unfold known in *; cbn [st_next]; auto.
  - intros i x J. apply put_keep in J as [[-> _]|J]; eauto.
  - intros i x J O. apply in_or_app. apply put_keep in J as [[-> ->]|J]; [|left; eauto].
    destruct L as [L| ->]; [left|right; now left]. apply (MV id sp); auto. unfold on_spaces in *. now rewrite <- L.
  - intros i J F. apply put_none in F. destruct (FR i J F). split; apply in_or_app; auto.
Qed.
Lemma hi_same h a s op m r q hd :
  HI h s ->
  (forall i ev, In (i, ev) q -> known s i) ->
  (forall i ev, r = RHas i ev \/ r = EventReg.RGot i ev -> known s i) ->
  (forall t i, hd t = Some i -> known s i) ->
  HI (h ++ [a]) (mkS (st_spaces s) (st_next s) op q m r hd).
Proof.
  intros [N K MV FR QU RE HE] Q1 R1 H1.
  constructor; cbn [st_next st_spaces st_queue st_res st_held]; unfold known in *; cbn [st_next]; auto.
  - intros i x J O. apply in_or_app. left. eauto.
  - intros i J F. destruct (FR i J F). split; apply in_or_app; auto.
Qed.
Lemma state_eta s : s = mkS (st_spaces s) (st_next s) (st_open s) (st_queue s) (st_main s) (st_res s) (st_held s).
Proof. now destruct s. Qed.

Lemma find_name_known h s name id : Inv s -> HI h s -> find_name name (st_spaces s) = Some id -> known s id.
Proof.
  intros I H F. destruct (find_name_get name _ id (i_keys s I) F) as (sp & G & _). exact (h_keys _ _ H id sp G).
Qed.

Lemma hi_run h s tr : run h s tr -> HI h s.
Proof.
  induction 1 as [|h s tr a s' o RU IH S].
  { constructor; cbn; unfold known; cbn; auto; try discriminate; try tauto; try lia.
    intros id ev [E|E]; discriminate. }
  pose proof (inv_run _ _ _ RU) as I. pose proof (hi_same h a s) as SM. pose proof (hi_put h a s) as PT.
  pose proof IH as HH. destruct IH as [N K MV FR QU RE HE].
  destruct a; cbn [step] in S; unfold clean_step in S.
  - destruct (name_used name (st_spaces s)); [discriminate|]. injection S as <- <-.
    constructor; cbn [st_next st_spaces st_queue st_res st_held]; unfold known in *; cbn [st_next]; auto.
    + intros i x J. cbn [get] in J. destruct (Nat.eqb_spec (st_next s) i) as [<-|]; [lia|]. specialize (K i x J). lia.
    + intros i x J O. cbn [get] in J. apply in_or_app. left. destruct (Nat.eqb_spec (st_next s) i) as [<-|]; [|eauto].
      injection J as <-. discriminate.
    + intros i J F. cbn [get] in F. destruct (Nat.eqb_spec (st_next s) i) as [<-|]; [discriminate|].
      destruct (FR i) as [A B]; [lia|exact F|]. split; apply in_or_app; auto.
    + intros i ev J. specialize (QU i ev J). lia.
    + intros i ev J. specialize (RE i ev J). lia.
    + intros t i J. specialize (HE t i J). lia.
  - destruct (main_idle s && find_id id (st_spaces s)) eqn:E; [|discriminate]. apply andb_prop in E as [_ E].
    unfold find_id in E. destruct (get id (st_spaces s)) as [sp|] eqn:G; [|discriminate].
    destruct mem; injection S as <- <-.
    + apply SM; auto. intros i e J. apply in_app_or in J as [J|[J|[]]]; [eauto|]. injection J as <- <-. eauto.
    + rewrite (state_eta s) at 1. apply SM; auto.
  - destruct (get id (st_spaces s)) as [sp|] eqn:G; [|discriminate].
    destruct (main_idle s && on_spaces sp); [|discriminate]. injection S as <- <-. apply (PT id sp); auto.
  - destruct (get id (st_spaces s)) as [sp|] eqn:G; [|discriminate].
    destruct (negb (on_spaces sp) && negb (sp_exited sp)); [|discriminate]. injection S as <- <-. apply (PT id sp); auto.
  - destruct (get id (st_spaces s)) as [sp|] eqn:G; [|discriminate].
    destruct (main_idle s && negb (on_spaces sp) && sp_exited sp) eqn:E; [|discriminate]. injection S as <- <-.
    apply andb_prop in E as [E _]. apply andb_prop in E as [_ E]. apply negb_true_iff in E.
    constructor; cbn [st_next st_spaces st_queue st_res st_held]; unfold known in *; cbn [st_next]; auto.
    + intros i x J. rewrite get_drop in J. destruct (i =? id)%nat; [discriminate|]. eauto.
    + intros i x J O. rewrite get_drop in J. destruct (i =? id)%nat; [discriminate|]. apply in_or_app. left. eauto.
    + intros i J F. rewrite get_drop in F. destruct (Nat.eqb_spec i id) as [->|].
      * split; apply in_or_app; [left; eauto|right; now left].
      * destruct (FR i J F). split; apply in_or_app; auto.
  - destruct (main_idle s); [|discriminate]. destruct (find_name name (st_spaces s)); injection S as <- <-;
      [|rewrite (state_eta s) at 1]; apply SM; auto.
  - destruct (st_main s); try discriminate. destruct (get id (st_spaces s)) as [sp|] eqn:G; [|discriminate].
    destruct ((dup =? -1) || ((0 <=? dup) && negb (existsb (Z.eqb dup) (st_open s)))); [|discriminate].
    destruct (if dup =? -1 then None else store dup (sp_fds sp)) as [fds'|].
    + injection S as <- <-. apply (PT id sp); auto.
    + destruct retried; injection S as <- <-; apply SM; auto.
  - destruct (st_main s); try discriminate. destruct (get id (st_spaces s)) as [sp|] eqn:G; [|discriminate].
    destruct (clean ans (sp_fds sp)). destruct (length l0 =? 0)%nat; injection S as <- <-; apply (PT id sp); auto.
  - destruct (st_main s); try discriminate. injection S as <- <-. apply SM; auto.
  - destruct (main_idle s); [|discriminate]. destruct (find_name name (st_spaces s)); injection S as <- <-;
      [|rewrite (state_eta s) at 1]; apply SM; auto.
  - destruct (st_main s); try discriminate. destruct (get id (st_spaces s)) as [sp|] eqn:G; [|discriminate].
    destruct (clean ans (sp_fds sp)). injection S as <- <-; apply (PT id sp); auto.
  - destruct (st_res s) eqn:ER; try discriminate. destruct (st_queue s) as [|[id ev] q] eqn:EQ; [discriminate|].
    injection S as <- <-. apply SM; auto.
    + intros i e J. apply (QU i e). now right.
    + intros i e [J|J]; [|discriminate]. injection J as <- <-. apply (QU id ev). now left.
  - destruct (st_res s) eqn:ER; try discriminate. destruct (find_id id (st_spaces s)); injection S as <- <-; apply SM; auto.
    + intros i e [J|J]; [discriminate|]. injection J as <- <-. apply (RE id ev). now left.
    + intros i e [J|J]; discriminate.
  - destruct (st_res s) eqn:ER; try discriminate. destruct (get id (st_spaces s)) as [sp|] eqn:G; [|discriminate].
    destruct (callbacks ans ev (sp_fds sp)). injection S as <- <-. apply (PT id sp); auto.
    intros i e [J|J]; discriminate.
  - destruct (st_held s t) eqn:EH; [discriminate|]. destruct (find_name name (st_spaces s)) eqn:F; injection S as <- <-.
    + apply SM; auto. intros t' i J. destruct (t' =? t)%nat; [|eauto]. injection J as <-. eapply find_name_known; eauto.
    + rewrite (state_eta s) at 1. apply SM; auto.
  - destruct (st_held s t) eqn:EH; [|discriminate]. destruct (get n (st_spaces s)); [|discriminate]. injection S as <- <-.
    apply SM; auto. intros t' i J. destruct (t' =? t)%nat; [discriminate|]. eauto.
Qed.

(* an access to a freed structure is only possible in send_event_callbacks and in
   set_event/host_status_set_bit, and only after the lockspace was removed and freed;
   reg_event and end_event, which run in the thread that frees, are safe *)
Theorem C76_main_safe h s tr a :
  run h s tr -> step s a = Some Ub ->
  exists id, In (AMove id) h /\ In (AFree id) h /\
    ((exists ans ev, a = ASend ans /\ st_res s = EventReg.RGot id ev) \/
     (exists t, a = AWUse t /\ st_held s t = Some id)).
Proof.
  intros RU S. pose proof (inv_run _ _ _ RU) as I. pose proof (hi_run _ _ _ RU) as H.
  destruct a; cbn [step] in S; unfold clean_step in S;
    repeat match type of S with
    | context [match st_res s with _ => _ end] => destruct (st_res s) eqn:?; try discriminate S
    | context [match st_queue s with _ => _ end] => destruct (st_queue s) as [|[]] eqn:?; try discriminate S
    | context [match st_main s with _ => _ end] => destruct (st_main s) eqn:?; try discriminate S
    | context [match ?x with Some _ => _ | None => _ end] => destruct x eqn:?; try discriminate S
    | context [let (_, _) := callbacks ?a ?b ?c in _] => destruct (callbacks a b c)
    | context [let (_, _) := clean ?a ?b in _] => destruct (clean a b)
    | context [if ?b then _ else _] => destruct b eqn:?; try discriminate S
    end; try discriminate S;
    try (destruct (i_main s I id) as (sp & G & _); [rewrite Heqm; reflexivity|congruence]).
  - destruct (h_freed _ _ H id) as [A B]; [apply (h_res _ _ H id ev); auto|assumption|].
    exists id. split; auto. split; auto. left. eauto.
  - destruct (h_freed _ _ H n) as [A B]; [apply (h_held _ _ H t n); auto|assumption|].
    exists n. split; auto. split; auto. right. eauto.
Qed.

(* with a count of the users, so that the structure is only freed when no thread holds it *)
Definition unheld (s : state) (a : action) : Prop :=
  match a with
  | AFree id => (forall ev, st_res s <> EventReg.RGot id ev) /\ (forall t, st_held s t <> Some id)
  | _ => True
  end.
Inductive crun : list action -> state -> list out -> Prop :=
| crun_init : crun [] init []
| crun_step h s tr a s' o :
    crun h s tr -> unheld s a -> step s a = Some (Next s' o) -> crun (h ++ [a]) s' (tr ++ o).
Lemma crun_run h s tr : crun h s tr -> run h s tr.
Proof. induction 1; [constructor|econstructor; eauto]. Qed.

Definition holds (s : state) (id : nat) : Prop :=
  (exists ev, st_res s = EventReg.RGot id ev) \/ (exists t, st_held s t = Some id).
Lemma step_holds s a s' o id : Inv s ->
  step s a = Some (Next s' o) -> holds s' id -> holds s id \/ get id (st_spaces s') <> None.
Proof.
  intros I S H.
  destruct a; cbn [step] in S; unfold clean_step in S;
    repeat match type of S with
    | context [match st_res s with _ => _ end] => destruct (st_res s) eqn:?; try discriminate S
    | context [match st_queue s with _ => _ end] => destruct (st_queue s) as [|[]] eqn:?; try discriminate S
    | context [match st_main s with _ => _ end] => destruct (st_main s) eqn:?; try discriminate S
    | context [match st_held ?x ?y with _ => _ end] => destruct (st_held x y) eqn:?; try discriminate S
    | context [match find_name ?x ?y with _ => _ end] => destruct (find_name x y) eqn:?; try discriminate S
    | context [match get ?x ?y with _ => _ end] => destruct (get x y) eqn:?; try discriminate S
    | context [match ?x with Some _ => _ | None => _ end] => destruct x eqn:?; try discriminate S
    | context [let (_, _) := callbacks ?a ?b ?c in _] => destruct (callbacks a b c)
    | context [let (_, _) := clean ?a ?b in _] => destruct (clean a b)
    | context [if ?b then _ else _] => destruct b eqn:?; try discriminate S
    end; try discriminate S; injection S as <- <-;
    unfold holds in *;
    cbn [set_main set_open upd_space set_res set_queue hold st_res st_held st_spaces] in *;
    try (left; exact H);
    try (left; destruct H as [(e & E)|H]; [congruence|right; exact H]).
  - destruct H as [(e & E)|H]; [|left; right; exact H]. injection E as <- _. right.
    unfold find_id in Heqb. destruct (get id0 (st_spaces s)); congruence.
  - destruct H as [H|(t' & E)]; [left; left; exact H|]. destruct (t' =? t)%nat; [|left; right; eauto].
    injection E as <-. right. destruct (find_name_get _ _ _ (i_keys s I) Heqo1) as (sp & G & _). congruence.
  - destruct H as [H|(t' & E)]; [left; left; exact H|]. destruct (t' =? t)%nat; [discriminate|left; right; eauto].
Qed.
Lemma step_keeps s a s' o id :
  step s a = Some (Next s' o) -> get id (st_spaces s) <> None -> a = AFree id \/ get id (st_spaces s') <> None.
Proof.
  intros S G. 
  assert (PK : forall i sp, get id (put i sp (st_spaces s)) <> None).
  { intros i sp E. now apply put_none in E. }
  destruct a; cbn [step] in S; unfold clean_step in S;
    repeat match type of S with
    | context [match st_res s with _ => _ end] => destruct (st_res s) eqn:?; try discriminate S
    | context [match st_queue s with _ => _ end] => destruct (st_queue s) as [|[]] eqn:?; try discriminate S
    | context [match st_main s with _ => _ end] => destruct (st_main s) eqn:?; try discriminate S
    | context [match ?x with Some _ => _ | None => _ end] => destruct x eqn:?; try discriminate S
    | context [let (_, _) := callbacks ?a ?b ?c in _] => destruct (callbacks a b c)
    | context [let (_, _) := clean ?a ?b in _] => destruct (clean a b)
    | context [if ?b then _ else _] => destruct b eqn:?; try discriminate S
    end; try discriminate S; injection S as <- <-;
    cbn [set_main set_open upd_space set_res set_queue hold st_res st_held st_spaces] in *;
    try (right; exact G); try (right; apply PK).
  - right. cbn [get]. destruct (st_next s =? id)%nat; [discriminate|exact G].
  - destruct (Nat.eq_dec id0 id) as [->|N]; auto. right. rewrite get_drop.
    destruct (Nat.eqb_spec id id0); [congruence|exact G].
Qed.

Theorem C76_lifetime_partial h s tr a : crun h s tr -> step s a <> Some Ub.
Proof.
  intros RU S.
  assert (K : forall id, holds s id -> get id (st_spaces s) <> None).
  { clear S. induction RU as [|h s tr b s' o RU IH UN S].
    - intros id [(e & E)|(t & E)]; discriminate.
    - intros id H. pose proof (inv_run _ _ _ (crun_run _ _ _ RU)) as I.
      destruct (step_holds s b s' o id I S H) as [HS|G]; [|exact G].
      destruct (step_keeps s b s' o id S (IH id HS)) as [->|G]; [|exact G].
      destruct UN as [U1 U2]. destruct HS as [(e & E)|(t & E)]; [now apply U1 in E|now apply U2 in E]. }
  destruct (C76_main_safe _ _ _ _ (crun_run _ _ _ RU) S) as (id & _ & _ & [(ans & ev & -> & E)|(t & -> & E)]);
    cbn [step] in S; rewrite E in S.
  - destruct (get id (st_spaces s)) eqn:G; [destruct (callbacks ans ev (sp_fds s0)); discriminate|].
    apply (K id); [left; eauto|exact G].
  - destruct (get id (st_spaces s)) eqn:G; [discriminate|]. apply (K id); [right; eauto|exact G].
Qed.

(* ------------------------------------------------------------------ *)
(* When a registration ends, is refused, or an event is dropped         *)

(* the client asked for it, or is gone *)
Definition asked (a : rans) : Prop :=
  match a with RAgain => False | RVal v => v = 1 | RShort | REof | RErr => True end.
Lemma ended_asked a : ended a = true <-> asked a.
Proof. destruct a; cbn; rewrite ?Z.eqb_eq; intuition congruence. Qed.

(* a registration is only closed when the client asked for it or is gone, when an event
   could not be sent to it, or when the lockspace ends *)
Theorem C76_kept s a s' o d :
  step s a = Some (Next s' o) -> In (OClose d) o ->
  (exists ans, (a = ARegClean ans \/ a = AEndClean ans) /\ asked (ans d)) \/
  (exists ans, a = ASend ans /\ ans d = SFail) \/
  (exists id sp, a = AExit id /\ get id (st_spaces s) = Some sp /\ sp_list sp = OnRem).
Proof.
  intros S J.
  assert (CL : forall ans fds o', (forall x, In x o' -> exists rv, x = ORegRv rv \/ x = OEndRv rv) ->
    In (OClose d) (map OClose (snd (clean ans fds)) ++ o') -> asked (ans d)).
  { intros ans fds o' PL K. apply in_app_or in K as [K|K].
    - apply in_map_iff in K as (x & E & K). injection E as ->. unfold clean in K. cbn [snd] in K.
      apply filter_In in K as [_ K]. apply andb_prop in K as [_ K]. now apply ended_asked.
    - destruct (PL _ K) as (rv & [E|E]); discriminate. }
  destruct a; cbn [step] in S; unfold clean_step in S;
    repeat match type of S with
    | context [match st_res s with _ => _ end] => destruct (st_res s) eqn:?; try discriminate S
    | context [match st_queue s with _ => _ end] => destruct (st_queue s) as [|[]] eqn:?; try discriminate S
    | context [match st_main s with _ => _ end] => destruct (st_main s) eqn:?; try discriminate S
    | context [match ?x with Some _ => _ | None => _ end] => destruct x eqn:?; try discriminate S
    | context [let (_, _) := callbacks ?a ?b ?c in _] =>
        pose proof (callbacks_outs a b c (OClose d)); destruct (callbacks a b c)
    | context [let (_, _) := clean ?a ?b in _] => pose proof (CL a b); destruct (clean a b)
    | context [if ?b then _ else _] => destruct b eqn:?; try discriminate S
    end; try discriminate S; injection S as <- <-;
    try (cbn in J; intuition discriminate).
  - right. right. exists id, s0. repeat split; auto. apply andb_prop in Heqb as [E _].
    unfold on_spaces in E. destruct (sp_list s0); auto. discriminate.
  - left. exists ans. split; auto. apply (H [ORegRv (- ENOCSI)]); auto. intros x [<-|[]]. eauto.
  - left. exists ans. split; auto. apply (H []); auto. intros x [].
  - left. exists ans. split; auto. apply (H [OEndRv 0]); auto. intros x [<-|[]]. eauto.
  - right. left. destruct J as [J|J]; [discriminate|]. exists ans. split; auto.
    destruct (H J) as (d' & _ & _ & [[A E]|(m & _ & E)]); [congruence|discriminate].
Qed.

(* end_event closes exactly the registrations of its lockspace that ended *)
Theorem C76_ended h s tr l id ans s' o d :
  run h s tr -> regs [] tr = Some l -> st_main s = MEnd id ->
  step s (AEndClean ans) = Some (Next s' o) -> In (id, d) l ->
  In (OEndRv 0) o /\ (In (OClose d) o <-> asked (ans d)).
Proof.
  intros RU RG M S J. destruct (ti_run _ _ _ RU) as (l' & RG' & EQ & _). rewrite RG in RG'. injection RG' as <-.
  apply EQ in J as (sp & G & K & U). cbn [step] in S. rewrite M, G in S. unfold clean_step, clean in S.
  injection S as _ <-. split; [apply in_or_app; right; now left|]. split.
  - intros J. apply in_app_or in J as [J|[J|[]]]; [|discriminate]. apply in_map_iff in J as (x & E & J). injection E as ->.
    apply filter_In in J as [_ J]. apply andb_prop in J as [_ J]. now apply ended_asked.
  - intros A. apply in_or_app. left. apply in_map, filter_In. split; auto.
    apply ended_asked in A. rewrite A. apply used_spec in U. now rewrite U.
Qed.

(* a registration is refused with -ENOCSI only when the second dup fails, or no registration
   has ended at the cleaning; for how the cleaning is reached see C76_scan_full *)
Theorem C76_refused h s tr a s' o :
  run h s tr -> step s a = Some (Next s' o) -> In (ORegRv (- ENOCSI)) o ->
  a = ARegScan (-1) \/
  exists id sp ans, a = ARegClean ans /\ st_main s = MRegClean id /\ get id (st_spaces s) = Some sp /\
    forall d, In d (sp_fds sp) -> d <> -1 -> ~ asked (ans d).
Proof.
  intros RU S J. pose proof (inv_run _ _ _ RU) as I.
  destruct a; cbn [step] in S; unfold clean_step in S;
    try match goal with
    | |- context [ARegClean _] =>
        destruct (st_main s) eqn:M; try discriminate; destruct (get id (st_spaces s)) as [sp|] eqn:G; [|discriminate];
        right; exists id, sp, ans; repeat split; auto; intros d K U A;
        unfold clean in S;
        destruct (length (filter (fun d => used d && ended (ans d)) (sp_fds sp)) =? 0)%nat eqn:E;
        [ apply Nat.eqb_eq, length_zero_iff_nil in E;
          assert (X : In d (filter (fun d => used d && ended (ans d)) (sp_fds sp)));
          [ apply filter_In; split; auto; apply ended_asked in A; rewrite A; apply used_spec in U; now rewrite U
          | rewrite E in X; destruct X ]
        | injection S as _ <-; apply in_app_or in J as [J|[]]; apply in_map_iff in J as (x & Q & _); discriminate ]
    | |- context [ARegScan _] =>
        destruct (st_main s) eqn:M; try discriminate; destruct (get id (st_spaces s)) as [sp|] eqn:G; [|discriminate];
        destruct ((dup =? -1) || ((0 <=? dup) && negb (existsb (Z.eqb dup) (st_open s)))) eqn:B; [|discriminate];
        destruct (Z.eqb_spec dup (-1)) as [->|N]; [now left|];
        destruct (store dup (sp_fds sp)) as [fds'|] eqn:ST;
        [injection S as _ <-; cbn in J; intuition discriminate|];
        destruct retried; [|injection S as _ <-; destruct J];
        exfalso; destruct (i_again s I id M) as (sp' & G' & F); rewrite G in G'; injection G' as <-;
        apply store_none in ST; rewrite forallb_forall in ST; specialize (ST _ F); discriminate
    end; exfalso;
    repeat match type of S with
    | context [match st_res s with _ => _ end] => destruct (st_res s) eqn:?; try discriminate S
    | context [match st_queue s with _ => _ end] => destruct (st_queue s) as [|[]] eqn:?; try discriminate S
    | context [match st_main s with _ => _ end] => destruct (st_main s) eqn:?; try discriminate S
    | context [match ?x with Some _ => _ | None => _ end] => destruct x eqn:?; try discriminate S
    | context [let (_, _) := callbacks ?a ?b ?c in _] =>
        pose proof (callbacks_outs a b c (ORegRv (- ENOCSI))); destruct (callbacks a b c)
    | context [let (_, _) := clean ?a ?b in _] => destruct (clean a b)
    | context [if ?b then _ else _] => destruct b eqn:?; try discriminate S
    end; try discriminate S; injection S as _ <-;
    try (cbn in J; intuition discriminate).
  - apply in_map_iff in J as (x & Q & _). discriminate.
  - apply in_app_or in J as [J|[J|[]]]; [|discriminate]. apply in_map_iff in J as (x & Q & _). discriminate.
  - destruct J as [J|J]; [discriminate|]. destruct (H J) as (d' & _ & _ & [[A E]|(m & _ & E)]); discriminate.
Qed.

(* the place before the cleaning is only reached when dup failed or the lockspace had 32
   registrations *)
Theorem C76_scan_full h s tr l d s' o id :
  run h s tr -> regs [] tr = Some l ->
  step s (ARegScan d) = Some (Next s' o) -> st_main s' = MRegClean id ->
  d = -1 \/ exists fds, length fds = 32%nat /\ NoDup fds /\ forall x, In x fds -> In (id, x) l.
Proof.
  intros RU RG S M. pose proof (inv_run _ _ _ RU) as I.
  destruct (ti_run _ _ _ RU) as (l' & RG' & EQ & _). rewrite RG in RG'. injection RG' as <-.
  cbn [step] in S. destruct (st_main s) eqn:E; try discriminate.
  destruct (get id0 (st_spaces s)) as [sp|] eqn:G; [|discriminate].
  destruct ((d =? -1) || ((0 <=? d) && negb (existsb (Z.eqb d) (st_open s)))) eqn:B; [|discriminate].
  destruct (Z.eqb_spec d (-1)) as [->|N]; [now left|]. right.
  destruct (store d (sp_fds sp)) as [fds'|] eqn:ST; [injection S as <- _; discriminate|].
  destruct retried; injection S as <- _; [discriminate|]. cbn in M. injection M as <-.
  apply store_none in ST. rewrite forallb_forall in ST.
  assert (F : filter used (sp_fds sp) = sp_fds sp).
  { clear -ST. induction (sp_fds sp) as [|x f IH]; auto. cbn [filter]. rewrite (ST x (or_introl eq_refl)), IH; auto.
    intros y J. apply ST. now right. }
  exists (sp_fds sp). split; [exact (i_len s I id0 sp G)|]. split.
  - rewrite <- F. exact (i_nd s I id0 sp G).
  - intros x J. apply EQ. exists sp. split; auto. split; auto. apply used_spec. auto.
Qed.

(* the request works on a running lockspace of the name given *)
Definition named (name : Z) (s : state) (id : nat) : Prop :=
  exists sp, get id (st_spaces s) = Some sp /\ sp_name sp = name /\ sp_list sp = OnSpaces.
Theorem C76_named h s tr a name s' o :
  run h s tr -> a = ARegLook name \/ a = AEndLook name -> step s a = Some (Next s' o) ->
  ((exists rv, o = [rv] /\ (rv = ORegRv (- ENOENT) \/ rv = OEndRv (- ENOENT))) /\ s' = s /\ forall id, ~ named name s id) \/
  (exists id, named name s id /\ o = [] /\ (st_main s' = MReg id false \/ st_main s' = MEnd id)).
Proof.
  intros RU A S. pose proof (inv_run _ _ _ RU) as I.
  assert (NO : find_name name (st_spaces s) = None -> forall id, ~ named name s id).
  { clear. intros F id (sp & G & NM & L). revert F G. induction (st_spaces s) as [|[i x] l IH]; cbn; [discriminate|].
    intros F G. destruct (on_spaces x && (sp_name x =? name)) eqn:B; [discriminate|].
    destruct (i =? id)%nat; [|auto]. injection G as ->. unfold on_spaces in B. rewrite L, NM, Z.eqb_refl in B. discriminate. }
  assert (YES : forall id, find_name name (st_spaces s) = Some id -> named name s id).
  { intros id F. destruct (find_name_get _ _ _ (i_keys s I) F) as (sp & G & O & NM). exists sp. repeat split; auto.
    unfold on_spaces in O. destruct (sp_list sp); auto. discriminate. }
  destruct A as [->| ->]; cbn [step] in S; destruct (main_idle s); try discriminate;
    destruct (find_name name (st_spaces s)) as [id|] eqn:F; injection S as <- <-.
  1,3: right; exists id; split; [auto|split; [reflexivity|cbn; auto]].
  all: left; split; [eexists; split; [reflexivity|auto]|split; auto].
Qed.

(* while the lockspace has fewer than 32 registrations a descriptor is registered *)
Theorem C76_registers h s tr l id r d s' o :
  run h s tr -> regs [] tr = Some l -> st_main s = MReg id r -> d <> -1 ->
  (length (filter (fun x => Nat.eqb (fst x) id) l) < 32)%nat ->
  step s (ARegScan d) = Some (Next s' o) -> o = [OReg id d; ORegRv 0].
Proof.
  intros RU RG M N LT S. pose proof (inv_run _ _ _ RU) as I.
  destruct (ti_run _ _ _ RU) as (l' & RG' & EQ & _). rewrite RG in RG'. injection RG' as <-.
  destruct (i_main s I id) as (sp & G & _); [now rewrite M|].
  cbn [step] in S. rewrite M, G in S.
  destruct ((d =? -1) || ((0 <=? d) && negb (existsb (Z.eqb d) (st_open s)))) eqn:B; [|discriminate].
  destruct (Z.eqb_spec d (-1)) as [|_]; [contradiction|].
  destruct (store d (sp_fds sp)) as [fds'|] eqn:ST; [now injection S as _ <-|]. exfalso.
  apply store_none in ST. rewrite forallb_forall in ST.
  assert (F : filter used (sp_fds sp) = sp_fds sp).
  { clear -ST. induction (sp_fds sp) as [|x f IH]; auto. cbn [filter]. rewrite (ST x (or_introl eq_refl)), IH; auto.
    intros y J. apply ST. now right. }
  pose proof (i_nd s I id sp G) as ND. rewrite F in ND. pose proof (i_len s I id sp G) as LN. unfold MAX_EVENT_FDS in LN.
  assert (LE : (length (map (fun x => (id, x)) (sp_fds sp)) <= length (filter (fun x => Nat.eqb (fst x) id) l))%nat).
  { apply NoDup_incl_length.
    - apply FinFun.Injective_map_NoDup; auto. intros x y E. now injection E.
    - intros y J. apply in_map_iff in J as (x & <- & J). apply filter_In. cbn [fst]. rewrite Nat.eqb_refl. split; auto.
      apply EQ. exists sp. split; auto. split; auto. apply used_spec. auto. }
  rewrite map_length in LE. lia.
Qed.

(* success means registered *)
Theorem C76_success h s tr a s' o :
  run h s tr -> step s a = Some (Next s' o) -> In (ORegRv 0) o ->
  exists id d l, o = [OReg id d; ORegRv 0] /\ looked (st_main s) = Some id /\ regs [] (tr ++ o) = Some l /\ In (id, d) l.
Proof.
  intros RU S J.
  destruct (step_regs s a s' o (inv_run _ _ _ RU) S) as [NR|(id & d & r & E & M & _)].
  - exfalso. destruct a; cbn [step] in S; unfold clean_step in S;
    repeat match type of S with
    | context [match st_res s with _ => _ end] => destruct (st_res s) eqn:?; try discriminate S
    | context [match st_queue s with _ => _ end] => destruct (st_queue s) as [|[]] eqn:?; try discriminate S
    | context [match st_main s with _ => _ end] => destruct (st_main s) eqn:?; try discriminate S
    | context [match ?x with Some _ => _ | None => _ end] => destruct x eqn:?; try discriminate S
    | context [let (_, _) := callbacks ?a ?b ?c in _] =>
        pose proof (callbacks_outs a b c (ORegRv 0)); destruct (callbacks a b c)
    | context [let (_, _) := clean ?a ?b in _] => destruct (clean a b)
    | context [if ?b then _ else _] => destruct b eqn:?; try discriminate S
    end; try discriminate S; injection S as _ <-;
    try (cbn in J; intuition discriminate);
    try (apply in_app_or in J as [J|J]; [|cbn in J; intuition discriminate]);
    try (apply in_map_iff in J as (x & Q & _); discriminate).
    + apply (NR id dup). now left.
    + destruct J as [J|J]; [discriminate|]. destruct (H J) as (d' & _ & _ & [[A E]|(m & _ & E)]); discriminate.
  - destruct (C76_descriptors _ _ _ (run_step _ _ _ _ _ _ RU S)) as (l & RG & _). exists id, d, l.
    split; auto. split; [now rewrite M|]. split; auto.
    destruct (C76_descriptors _ _ _ RU) as (l0 & RG0 & _). rewrite regs_app, RG0, E in RG. cbn [regs] in RG.
    destruct (existsb (isd d) l0); [discriminate|]. injection RG as <-. now left.
Qed.

(* an accepted event is only dropped if its lockspace was removed *)
Theorem C76_dropped h s tr id ev :
  run h s tr -> In (ODrop id ev) tr -> In (AMove id) h.
Proof.
  induction 1 as [|h s tr a s' o RU IH S]; intros J; [destruct J|].
  apply in_or_app. apply in_app_or in J as [J|J]; [left; auto|]. left. clear IH.
  pose proof (hi_run _ _ _ RU) as H.
  destruct a; cbn [step] in S; unfold clean_step in S;
    repeat match type of S with
    | context [match st_res s with _ => _ end] => destruct (st_res s) eqn:?; try discriminate S
    | context [match st_queue s with _ => _ end] => destruct (st_queue s) as [|[]] eqn:?; try discriminate S
    | context [match st_main s with _ => _ end] => destruct (st_main s) eqn:?; try discriminate S
    | context [match ?x with Some _ => _ | None => _ end] => destruct x eqn:?; try discriminate S
    | context [let (_, _) := callbacks ?a ?b ?c in _] =>
        pose proof (callbacks_outs a b c (ODrop id ev)); destruct (callbacks a b c)
    | context [let (_, _) := clean ?a ?b in _] => destruct (clean a b)
    | context [if ?b then _ else _] => destruct b eqn:?; try discriminate S
    end; try discriminate S; injection S as _ <-;
    try (cbn in J; intuition discriminate);
    try (apply in_app_or in J as [J|J]; [|cbn in J; intuition discriminate]);
    try (apply in_map_iff in J as (x & Q & _); discriminate).
  - destruct J as [J|[]]. injection J as -> ->.
    assert (KN : known s id) by (apply (h_res _ _ H id ev); auto).
    unfold find_id in Heqb. destruct (get id (st_spaces s)) as [sp|] eqn:G.
    + exact (h_moved _ _ H id sp G Heqb).
    + apply (h_freed _ _ H id KN G).
  - destruct J as [J|J]; [discriminate|]. destruct (H0 J) as (d' & _ & _ & [[A E]|(m & _ & E)]); discriminate.
Qed.

(* a registration is refused although an entry is free: the entry was given up by the
   resource thread between the scan and the cleaning *)
Definition w_acts : list action :=
  AAdd 5 :: concat (map (fun i => [ARegLook 5; ARegScan (10 + Z.of_nat i); AReply]) (seq 0 32)) ++
    [AEvent 1 7 true; APop; ALook; ARegLook 5; ARegScan 50; ASend (fun d => if d =? 10 then SFail else STook 80)].
Definition outcome (s : state) (acts : list action) : state * list out :=
  match play s acts with Some x => x | None => (init, []) end.
Definition plays (s : state) (acts : list action) : bool :=
  match play s acts with Some x => true | None => false end.
Lemma outcome_play s acts : plays s acts = true -> play s acts = Some (fst (outcome s acts), snd (outcome s acts)).
Proof. unfold plays, outcome. destruct (play s acts) as [[]|]; [reflexivity|discriminate]. Qed.

Theorem C76_refused_free :
  exists h s tr ans s' o id sp, run h s tr /\ st_main s = MRegClean id /\
    get id (st_spaces s) = Some sp /\ In (-1) (sp_fds sp) /\
    step s (ARegClean ans) = Some (Next s' o) /\ In (ORegRv (- ENOCSI)) o.
Proof.
  assert (P : plays init w_acts = true) by (vm_compute; reflexivity).
  pose proof (play_run w_acts [] init [] _ _ run_init (outcome_play _ _ P)) as RU.
  assert (M : st_main (fst (outcome init w_acts)) = MRegClean 1) by (vm_compute; reflexivity).
  assert (G : exists x, get 1 (st_spaces (fst (outcome init w_acts))) = Some (mkSp 5 OnSpaces false (-1 :: x)))
    by (eexists; vm_compute; reflexivity).
  assert (C : exists s' x, step (fst (outcome init w_acts)) (ARegClean (fun _ => RAgain)) =
                Some (Next s' x) /\ In (ORegRv (- ENOCSI)) x)
    by (do 2 eexists; split; [vm_compute; reflexivity|now left]).
  destruct G as (x & G). destruct C as (s' & o & C & J).
  exists ([] ++ w_acts), (fst (outcome init w_acts)), ([] ++ snd (outcome init w_acts)), (fun _ => RAgain), s', o, 1%nat,
    (mkSp 5 OnSpaces false (-1 :: x)).
  split; [exact RU|]. split; [exact M|]. split; [exact G|]. split; [now left|]. auto.
Qed.

(* two lockspaces, three registrations; events for both; one client ends, one cannot be
   reached, lockspace 1 is removed with an event still queued *)
Definition n_ok (d : Z) : sans := STook 80.
Definition n_acts : list action :=
  [AAdd 5; AAdd 6; ARegLook 5; ARegScan 10; AReply; AEvent 1 7 true; ARegLook 5; ARegScan 11; AReply;
   ARegLook 6; ARegScan 12; AReply; AEvent 2 3 true; APop; ALook; ASend n_ok; APop; ALook; ASend n_ok;
   AEndLook 5; AEndClean (fun d => if d =? 11 then RVal 1 else RAgain); AEvent 1 8 true; APop; ALook; ASend n_ok;
   AEvent 1 9 true].
Definition n_acts2 : list action := [AMove 1; AExit 1; AFree 1; APop; ALook].

(* no thread holds a space when one is freed *)
Fixpoint freely (s : state) (acts : list action) : Prop :=
  match acts with
  | [] => True
  | a :: acts => unheld s a /\ match step s a with Some (Next s' _) => freely s' acts | _ => False end
  end.
Lemma play_crun acts : forall h s tr s' o, crun h s tr -> freely s acts -> play s acts = Some (s', o) ->
  crun (h ++ acts) s' (tr ++ o).
Proof.
  induction acts as [|a acts IH]; intros h s tr s' o RU F P; cbn [play] in P.
  - injection P as <- <-. now rewrite !app_nil_r.
  - cbn [freely] in F. destruct F as [U F]. destruct (step s a) as [[|s1 o1]|] eqn:S; try discriminate.
    destruct (play s1 acts) as [[s2 o2]|] eqn:E; [|discriminate]. injection P as <- <-.
    pose proof (IH (h ++ [a]) s1 (tr ++ o1) s2 o2 (crun_step _ _ _ _ _ _ RU U S) F E) as Q.
    rewrite <- !app_assoc in Q. exact Q.
Qed.

Example C76_nonvacuous :
  exists h s tr l later s2 tr2 h2,
    crun h s tr /\ whole tr /\ regs [] tr = Some l /\ In (1%nat, 10) l /\ In (2%nat, 12) l /\ replied s 10 /\
    since 10 tr = Some (1%nat, later) /\ dispatched 1 later = [7; 8] /\
    (forall pre post, later = pre ++ OReply 10 :: post -> got 10 pre = []) /\
    client_reads (stream (fun ev => repeat ev 80) (repeat 0 32) 10 later) = [repeat 7 80; repeat 8 80] /\
    crun h2 s2 tr2 /\ In (OClose 11) tr2 /\ In (ODrop 1 9) tr2 /\ regs [] tr2 = Some [(2%nat, 12)] /\
    In (AFree 1) h2 /\ st_open s2 = [12].
Proof.
  assert (P1 : plays init n_acts = true) by (vm_compute; reflexivity).
  assert (P2 : plays init (n_acts ++ n_acts2) = true) by (vm_compute; reflexivity).
  assert (F1 : freely init n_acts) by (vm_compute; tauto).
  assert (F2 : freely init (n_acts ++ n_acts2)).
  { vm_compute. repeat split; intros; discriminate. }
  pose proof (play_crun _ _ _ _ _ _ crun_init F1 (outcome_play _ _ P1)) as R1.
  pose proof (play_crun _ _ _ _ _ _ crun_init F2 (outcome_play _ _ P2)) as R2.
  assert (T1 : snd (outcome init n_acts) = [OReg 1 10; ORegRv 0; OReply 10; OAccept 1 7; OReg 1 11; ORegRv 0; OReply 11;
    OReg 2 12; ORegRv 0; OReply 12; OAccept 2 3; ODispatch 1 7; OTook 10 7 80; OTook 11 7 80; ODispatch 2 3; OTook 12 3 80;
    OClose 11; OEndRv 0; OAccept 1 8; ODispatch 1 8; OTook 10 8 80; OAccept 1 9]) by (vm_compute; reflexivity).
  assert (T2 : snd (outcome init (n_acts ++ n_acts2)) = snd (outcome init n_acts) ++ [OClose 10; ODrop 1 9])
    by (vm_compute; reflexivity).
  rewrite T1 in *. rewrite T2 in *.
  do 3 eexists. exists [(2%nat, 12); (1%nat, 10)],
    [ORegRv 0; OReply 10; OAccept 1 7; OReg 1 11; ORegRv 0; OReply 11;
     OReg 2 12; ORegRv 0; OReply 12; OAccept 2 3; ODispatch 1 7; OTook 10 7 80; OTook 11 7 80; ODispatch 2 3; OTook 12 3 80;
     OClose 11; OEndRv 0; OAccept 1 8; ODispatch 1 8; OTook 10 8 80; OAccept 1 9].
  do 3 eexists. split; [exact R1|]. split.
  { intros d ev n K. cbn [In app] in K. intuition congruence. }
  split; [reflexivity|]. split; [cbn; auto|]. split; [cbn; auto|]. split; [vm_compute; discriminate|].
  split; [reflexivity|]. split; [reflexivity|]. split.
  { intros pre post E.
    destruct pre as [|x1 [|x2 pre]]; [reflexivity|injection E as <- _; reflexivity|].
    exfalso. injection E as _ _ E. revert pre E.
    assert (NI : forall l, reps 10 l = 0%nat -> forall pre, l = pre ++ OReply 10 :: post -> False).
    { intros l Z pre ->. rewrite reps_app in Z. unfold reps in Z. cbn [filter is_reply] in Z. rewrite Z.eqb_refl in Z. cbn in Z. lia. }
    apply NI. reflexivity. }
  split; [vm_compute; reflexivity|]. split; [exact R2|]. split; [cbn [In app]; tauto|]. split; [cbn [In app]; tauto|].
  split; [reflexivity|]. split; [cbn [In app n_acts n_acts2]; tauto|]. vm_compute. reflexivity.
Qed.

Print Assumptions C76_descriptors.
Print Assumptions C76_no_leak.
Print Assumptions C76_delivery.
Print Assumptions C76_queue.
Print Assumptions C76_stream_partial.
Print Assumptions C76_stream_refuted.
Print Assumptions C76_lifetime_refuted.
Print Assumptions C76_lifetime_worker_refuted.
Print Assumptions C76_lifetime_partial.
Print Assumptions C76_main_safe.
Print Assumptions C76_kept.
Print Assumptions C76_ended.
Print Assumptions C76_refused.
Print Assumptions C76_scan_full.
Print Assumptions C76_named.
Print Assumptions C76_registers.
Print Assumptions C76_success.
Print Assumptions C76_dropped.
Print Assumptions C76_refused_free.
