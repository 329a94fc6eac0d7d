(* C50: at most one resource index operation at a time runs in a lockspace,
   and the lockspace is not left while one runs.
   The on-disk lease that protects an index cannot tell two operations of the
   same daemon apart, so this flag is the only protection between them. *)
From Coq Require Import List NArith ZArith Lia Bool ZifyBool ZifyN.
From Verif Require Import Bytes Codec Leader Lockspaces C26.
Import ListNotations.
Open Scope N_scope.
Local Opaque strncmp_eq cstr.

(* ---- specification: operations in progress, by lockspace name ---- *)
Inductive rx_op :=
| RxBegin (n : N) (name : bytes)    (* operation number n starts *)
| RxEnd (n : N)                     (* operation n finishes (cmd.c: clear_rindex_op) *)
| RxOther (op : ls_op).             (* lockspace list operation *)

Record rx_state := mkRx { rx_ls : spaces; rx_active : list (N * bytes) }.

Definition rx_step (st : rx_state) (op : rx_op) : rx_state :=
  match op with
  | RxBegin n name =>
      match begin_rindex_op (rx_ls st) name with
      | (LsOk, ls) => mkRx ls ((n, cstr NAME_ID_SIZE name) :: rx_active st)
      | (_, ls) => mkRx ls (rx_active st)
      end
  | RxEnd n =>
      fold_left (fun s a => mkRx (clear_rindex_op (rx_ls s) (snd a)) (rx_active s))
                (filter (fun a => fst a =? n) (rx_active st))
                (mkRx (rx_ls st) (filter (fun a => negb (fst a =? n)) (rx_active st)))
  | RxOther op => mkRx (ls_step (rx_ls st) op) (rx_active st)
  end.

Definition rx_run (ls : spaces) (ops : list rx_op) : rx_state :=
  fold_left rx_step ops (mkRx ls []).

Definition one_per_lockspace (st : rx_state) : Prop := NoDup (map snd (rx_active st)).

(* full statement *)
Definition C50_statement : Prop :=
  forall lops ops,
    (forall o, In (RxOther o) ops -> forall n, o <> OpBeginRx n /\ o <> OpClearRx n) ->
    one_per_lockspace (rx_run (ls_run lops) ops).

(* Refuted: the lockspace fails while operation 1 runs, is removed (nothing in
   main_loop waits for the operation), and joined again.  Operation 2 starts;
   operation 1 finishes and clears the flag by name; operation 3 starts while
   operation 2 runs. *)
Definition w_ops : list rx_op :=
  [RxBegin 1 [97;0]; RxOther (OpDead 1); RxOther (OpMoveRem 1); RxOther (OpFree 1);
   RxOther (OpAdd ls_a); RxOther (OpAddOk 2);
   RxBegin 2 [97;0]].

Theorem C50_refuted : ~ C50_statement.
Proof.
  intros H. specialize (H [OpAdd ls_a; OpAddOk 1] w_ops).
  assert (X : rx_active (rx_run (ls_run [OpAdd ls_a; OpAddOk 1]) w_ops) = [(2, [97]); (1, [97])])
    by (vm_compute; reflexivity).
  unfold one_per_lockspace in H. rewrite X in H. cbn in H.
  assert (N : NoDup [[97]; [97]]).
  { apply H. intros o I n. cbn in I. intuition (try discriminate);
      match goal with E : RxOther _ = RxOther _ |- _ => injection E as E; subst; discriminate end. }
  apply NoDup_cons_iff in N. destruct N as [N _]. apply N. cbn. auto.
Qed.

(* also after operation 1 has finished, 2 and 3 run together in the live lockspace *)
Theorem C50_flag_cleared_by_other_operation :
  let st := rx_run (ls_run [OpAdd ls_a; OpAddOk 1]) (w_ops ++ [RxEnd 1; RxBegin 3 [97;0]]) in
  rx_active st = [(3, [97]); (2, [97])] /\ length (s_spaces (rx_ls st)) = 1%nat.
Proof. vm_compute. auto. Qed.

(* ---- what does hold: as long as no lockspace with a running operation
   leaves the daemon's list, operations exclude each other ---- *)
Definition flagged (st : spaces) (nm : bytes) : Prop :=
  exists sp, In sp (s_spaces st) /\ name_of sp = nm /\ sp_rindex_op sp = true.

Fixpoint no_leave (st : rx_state) (ops : list rx_op) : Prop :=
  match ops with
  | [] => True
  | op :: r =>
      (match op with
       | RxOther (OpMoveRem id) => forall sp, In sp (s_spaces (rx_ls st)) -> sp_id sp = id -> sp_rindex_op sp = false
       | RxOther (OpBeginRx _) | RxOther (OpClearRx _) => False
       | RxBegin n _ => ~ In n (map fst (rx_active st))      (* operation numbers are fresh *)
       | _ => True
       end) /\ no_leave (rx_step st op) r
  end.

Definition rinv (st : rx_state) : Prop :=
  inv (rx_ls st) /\ NoDup (map fst (rx_active st)) /\ NoDup (map snd (rx_active st)) /\
  forall a, In a (rx_active st) -> flagged (rx_ls st) (snd a).

Lemma flagged_upd (f : space -> space) id st st' nm :
  (forall sp, name_of (f sp) = name_of sp /\ sp_rindex_op (f sp) = sp_rindex_op sp) ->
  s_spaces st' = upd_id id f (s_spaces st) -> flagged st nm -> flagged st' nm.
Proof.
  intros Hf E (sp & I & N1 & R). unfold flagged. rewrite E.
  exists (if sp_id sp =? id then f sp else sp). split.
  - apply in_map_iff. exists sp. auto.
  - destruct (_ =? _); auto. destruct (Hf sp) as [-> ->]. auto.
Qed.

Lemma flagged_same st st' nm : s_spaces st' = s_spaces st -> flagged st nm -> flagged st' nm.
Proof. intros E (sp & I & H). exists sp. rewrite E. auto. Qed.

Lemma flagged_ls_step st op nm :
  (match op with
   | OpMoveRem id => forall sp, In sp (s_spaces st) -> sp_id sp = id -> sp_rindex_op sp = false
   | OpBeginRx _ | OpClearRx _ => False
   | _ => True end) ->
  flagged st nm -> flagged (ls_step st op) nm.
Proof.
  intros H F. destruct op; cbn [ls_step]; try contradiction.
  - unfold add_lockspace_start. destruct (_ || _); [auto|].
    repeat match goal with |- context [match search_space ?a ?b ?c ?d with _ => _ end] =>
             destruct (search_space a b c d) end; auto; eapply flagged_same; eauto.
  - unfold add_wait_ok. destruct existsb; [eapply flagged_same; eauto|].
    destruct F as (sp & I & X). exists sp. cbn. split; [apply in_or_app; auto|auto].
  - eapply flagged_same; eauto.
  - unfold rem_lockspace_start.
    repeat match goal with |- context [match search_space ?a ?b ?c ?d with _ => _ end] =>
             destruct (search_space a b c d) end; auto;
      try match goal with |- context [if ?b then _ else _] => destruct b end; auto;
      try (eapply flagged_same; [reflexivity|assumption]);
      (eapply (flagged_upd upd_ext); [|reflexivity|exact F]); auto.
  - eapply (flagged_upd upd_dead); [|reflexivity|exact F]. auto.
  - destruct F as (sp & I & N1 & R). exists sp. cbn. split; [|auto].
    apply filter_In. split; auto. destruct (sp_id sp =? id) eqn:E; auto.
    apply N.eqb_eq in E. rewrite (H sp I E) in R. discriminate.
  - eapply flagged_same; eauto.
Qed.

Lemma name_search st n sp :
  search_space (Some n) None 0 [s_spaces st] = Some sp ->
  In sp (s_spaces st) /\ name_of sp = cstr NAME_ID_SIZE n.
Proof.
  unfold search_space. cbn [concat]. rewrite app_nil_r. intros F. apply find_some in F.
  destruct F as [I F]. cbn in F. rewrite !andb_true_r in F. apply strncmp_eq_spec in F. auto.
Qed.

Lemma cstr_cstr n l : cstr n (cstr n l) = cstr n l.
Proof.
  Local Transparent cstr.
  revert l. induction n; intros [|b l]; cbn; auto. destruct (b =? 0) eqn:E; cbn; auto.
  rewrite E. f_equal. auto.
  Local Opaque cstr.
Qed.

Lemma name_unique st a b :
  inv st -> In a (s_spaces st) -> In b (s_spaces st) -> name_of a = name_of b -> a = b.
Proof.
  intros (H & _) Ia Ib E.
  assert (I : forall x, In x (s_spaces st) -> In x (all_spaces st)) by (intros; unfold all_spaces; apply in_or_app; auto).
  apply I in Ia. apply I in Ib. clear I. revert Ia Ib H. generalize (all_spaces st) as l.
  induction l as [|x l IH]; [intros []|]. cbn [map]. intros Ia Ib ND. apply NoDup_cons_iff in ND.
  destruct ND as [NI ND]. destruct Ia as [->|Ia], Ib as [->|Ib]; auto.
  - exfalso. apply NI. rewrite E. apply in_map. auto.
  - exfalso. apply NI. rewrite <- E. apply in_map. auto.
Qed.

Lemma id_unique st a b :
  inv st -> In a (s_spaces st) -> In b (s_spaces st) -> sp_id a = sp_id b -> a = b.
Proof.
  intros (_ & _ & H & _) Ia Ib E.
  assert (I : forall x, In x (s_spaces st) -> In x (all_spaces st)) by (intros; unfold all_spaces; apply in_or_app; auto).
  apply I in Ia. apply I in Ib. clear I. revert Ia Ib H. generalize (all_spaces st) as l.
  induction l as [|x l IH]; [intros []|]. cbn [map]. intros Ia Ib ND. apply NoDup_cons_iff in ND.
  destruct ND as [NI ND]. destruct Ia as [->|Ia], Ib as [->|Ib]; auto.
  - exfalso. apply NI. rewrite E. apply in_map. auto.
  - exfalso. apply NI. rewrite <- E. apply in_map. auto.
Qed.

Lemma filter_active_one (l : list (N * bytes)) n :
  NoDup (map fst l) -> filter (fun a => fst a =? n) l = [] \/
  exists nm, filter (fun a => fst a =? n) l = [(n, nm)] /\ In (n, nm) l.
Proof.
  induction l as [|(m, nm) l IH]; [auto|]. cbn [map filter fst]. intros ND.
  apply NoDup_cons_iff in ND. destruct ND as [NI ND]. destruct (m =? n) eqn:E.
  - apply N.eqb_eq in E. subst m. right. exists nm. cbn [In]. split; [|auto]. f_equal.
    clear IH ND. induction l as [|(m, x) l IH]; auto. cbn in *.
    destruct (m =? n) eqn:E; [apply N.eqb_eq in E; subst; tauto|]. apply IH. tauto.
  - destruct (IH ND) as [F|(x & F & I)]; [left; auto|right]. exists x. cbn [In]. auto.
Qed.

Lemma NoDup_filter_map {A B} (f : A -> B) p l : NoDup (map f l) -> NoDup (map f (filter p l)).
Proof.
  induction l as [|x l IH]; cbn; auto. intros ND. apply NoDup_cons_iff in ND. destruct ND as [NI ND].
  destruct (p x); cbn; auto. constructor; auto. intros I. apply NI.
  apply in_map_iff in I. destruct I as (y & <- & I). apply filter_In in I. apply in_map. tauto.
Qed.

Lemma rinv_step st op : rinv st -> no_leave st [op] -> rinv (rx_step st op).
Proof.
  intros (V & Nf & Ns & F) [L _]. destruct op as [n name|n|op]; cbn [rx_step].
  - pose proof (inv_step (rx_ls st) (OpBeginRx name) V) as V'. cbn [ls_step] in V'.
    unfold begin_rindex_op in *. destruct search_space as [sp|] eqn:S; [|split; auto].
    destruct (sp_dead sp) eqn:D; [split; auto|]. destruct (sp_rindex_op sp) eqn:R; [split; auto|].
    cbn [snd] in V'. apply name_search in S. destruct S as [I Nm].
    assert (U : forall a, In a (rx_active st) -> snd a <> cstr NAME_ID_SIZE name).
    { intros a Ia E. destruct (F a Ia) as (sp' & I' & N' & R').
      assert (sp' = sp) by (apply (name_unique (rx_ls st)); auto; rewrite N', E, Nm; reflexivity).
      subst sp'. rewrite R in R'. discriminate. }
    split; [exact V'|]. cbn [rx_active rx_ls map fst snd]. split; [constructor; auto|].
    split.
    { constructor; auto. intros X. apply in_map_iff in X. destruct X as (a & E & Ia). exact (U a Ia E). }
    intros a [<-|Ia].
    + exists (upd_rx true sp). cbn [snd s_spaces]. split; [|auto].
      apply in_map_iff. exists sp. rewrite N.eqb_refl. auto.
    + destruct (F a Ia) as (sp' & I' & N' & R'). exists sp'. cbn [s_spaces]. split; [|auto].
      apply in_map_iff. exists sp'. split; auto.
      destruct (sp_id sp' =? sp_id sp) eqn:E; auto.
      apply N.eqb_eq in E. assert (sp' = sp) by (apply (id_unique (rx_ls st)); auto). subst.
      rewrite R in R'. discriminate.
  - destruct (filter_active_one (rx_active st) n Nf) as [E|(nm & E & In_)]; rewrite E; cbn [fold_left].
    + split; [exact V|]. cbn [rx_active rx_ls].
      split; [apply NoDup_filter_map; auto|]. split; [apply NoDup_filter_map; auto|].
      intros a Ia. apply filter_In in Ia. destruct Ia. auto.
    + cbn [rx_ls rx_active snd].
      pose proof (inv_step (rx_ls st) (OpClearRx nm) V) as V'. cbn [ls_step] in V'.
      split; [exact V'|]. cbn [rx_active rx_ls].
      split; [apply NoDup_filter_map; auto|]. split; [apply NoDup_filter_map; auto|].
      intros a Ia. apply filter_In in Ia. destruct Ia as [Ia Ne].
      destruct (F a Ia) as (sp' & I' & N' & R').
      unfold clear_rindex_op. destruct search_space as [sp|] eqn:S; [|exists sp'; auto].
      apply name_search in S. destruct S as [I Nm].
      exists sp'. cbn [s_spaces]. split; [|auto]. apply in_map_iff. exists sp'. split; auto.
      destruct (sp_id sp' =? sp_id sp) eqn:Ei; auto. exfalso.
      apply N.eqb_eq in Ei. assert (sp' = sp) by (apply (id_unique (rx_ls st)); auto). subst sp'.
      (* a and (n, nm) have the same name, so are the same active operation *)
      assert (Sn : snd a = nm).
      { destruct (F _ In_) as (s2 & I2 & N2 & _). cbn [snd] in N2.
        assert (cstr NAME_ID_SIZE nm = nm).
        { rewrite <- N2. unfold name_of. apply cstr_cstr. }
        congruence. }
      assert (a = (n, nm)).
      { clear - Ns Ia In_ Sn. induction (rx_active st) as [|x l IH]; [destruct Ia|].
        cbn [map] in Ns. apply NoDup_cons_iff in Ns. destruct Ns as [NI Ns].
        destruct Ia as [->|Ia], In_ as [->|In_]; auto.
        - exfalso. apply NI. rewrite Sn. change nm with (snd (n, nm)). apply in_map. auto.
        - exfalso. apply NI. cbn. rewrite <- Sn. apply in_map. auto. }
      subst a. cbn in Ne. rewrite N.eqb_refl in Ne. discriminate.
  - split; [apply inv_step; exact V|]. cbn [rx_active rx_ls]. split; [auto|]. split; [auto|].
    intros a Ia. apply flagged_ls_step; [|auto]. destruct op; auto.
Qed.

Theorem C50_exclusive_while_joined_partial :
  forall lops ops,
    (forall sp, In sp (s_spaces (ls_run lops)) -> sp_rindex_op sp = false) ->
    no_leave (mkRx (ls_run lops) []) ops ->
    one_per_lockspace (rx_run (ls_run lops) ops).
Proof.
  intros lops ops _ L.
  assert (R : rinv (mkRx (ls_run lops) [])).
  { split; [apply inv_run|]. cbn. repeat split; try constructor. intros a []. }
  unfold rx_run. revert L R. generalize (mkRx (ls_run lops) []) as st.
  induction ops as [|op ops IH]; intros st L R.
  - destruct R as (_ & _ & R & _). exact R.
  - cbn [fold_left]. destruct L as [L1 L2]. apply IH; auto. apply rinv_step; auto. split; cbn; auto.
Qed.

(* an explicit removal request is refused while an operation runs *)
Theorem C50_remove_refused :
  forall st name ls sp,
    In sp (s_spaces st) -> inv st -> same_lockspace ls sp -> sp_host_id ls <> 0 ->
    sp_rindex_op sp = true -> name = sp_name ls ->
    rem_lockspace_start st ls = (LsEBUSY, st).
Proof.
  intros st name ls sp I V S Hz R ->. unfold rem_lockspace_start.
  assert (Only : forall l, (forall x, In x l -> In x (s_add st ++ s_rem st)) ->
     search_space (Some (sp_name ls)) (Some (sp_path ls, sp_offset ls)) (sp_host_id ls) [l] = None).
  { intros l Hl. destruct search_space as [x|] eqn:E; auto. exfalso.
    destruct (proj1 (id_search ls l Hz) (ex_intro _ x E)) as (y & Iy & Sy & _).
    destruct V as (V & _). unfold all_spaces in V. rewrite map_app in V.
    apply Hl in Iy. apply (in_map name_of) in Iy. apply (in_map name_of) in I.
    destruct S as [S _]. rewrite Sy, <- S in Iy.
    revert I Iy V. generalize (map name_of (s_spaces st)) as l1, (map name_of (s_add st ++ s_rem st)) as l2.
    induction l1 as [|z l1 IH]; intros l2 [] Iy ND.
    - subst. apply NoDup_cons_iff in ND. destruct ND as [ND _]. apply ND. apply in_or_app. auto.
    - apply NoDup_cons_iff in ND. destruct ND as [_ ND]. eapply IH; eauto. }
  rewrite (Only (s_rem st)) by (intros; apply in_or_app; auto).
  rewrite (Only (s_add st)) by (intros; apply in_or_app; auto).
  destruct search_space as [x|] eqn:E.
  - assert (x = sp).
    { unfold search_space in E. cbn [concat] in E. rewrite app_nil_r in E. apply find_some in E.
      destruct E as [Ix E]. rewrite !andb_true_iff in E. destruct E as [[E _] _]. cbn in E.
      apply strncmp_eq_spec in E. eapply name_unique; eauto. destruct S as [S _]. rewrite S. exact E. }
    subst x. rewrite R. reflexivity.
  - exfalso. destruct (proj2 (id_search ls (s_spaces st) Hz)) as (x & X); [eauto|]. congruence.
Qed.

Example C50_nonvacuous :
  no_leave (mkRx (ls_run [OpAdd ls_a; OpAddOk 1]) []) [RxBegin 1 [97;0]; RxBegin 2 [97;0]; RxEnd 1; RxBegin 3 [97;0]; RxOther (OpRem ls_a)] /\
  rx_active (rx_run (ls_run [OpAdd ls_a; OpAddOk 1]) [RxBegin 1 [97;0]; RxBegin 2 [97;0]; RxEnd 1; RxBegin 3 [97;0]]) = [(3, [97])].
Proof. split; [vm_compute; intuition discriminate|vm_compute; reflexivity]. Qed.

Print Assumptions C50_refuted.
Print Assumptions C50_flag_cleared_by_other_operation.
Print Assumptions C50_exclusive_while_joined_partial.
Print Assumptions C50_remove_refused.
