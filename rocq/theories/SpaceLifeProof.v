(* Invariant of the lockspace lists, their threads and the waiting commands. *)
From Coq Require Import List NArith ZArith Lia Bool ZifyBool ZifyN Permutation.
From Verif Require Import Bytes Codec Leader Lockspaces C26 SpaceLife.
Import ListNotations.
Open Scope N_scope.
Local Opaque strncmp_eq cstr.
Arguments all_spaces : simpl never.

(* ids of the adds still under way *)
Definition add_ids (w : list (N * wait)) : list N :=
  flat_map (fun x => match snd x with WAdd _ id _ | WUndo id _ => [id] | _ => [] end) w.

Definition same_fields (ls sp : space) : Prop :=
  sp_name sp = sp_name ls /\ sp_path sp = sp_path ls /\ sp_offset sp = sp_offset ls /\ sp_host_id sp = sp_host_id ls.

Definition hits (ls sp : space) : bool :=
  match_name (Some (sp_name ls)) sp && match_disk (Some (sp_path ls, sp_offset ls)) sp && match_host_id (sp_host_id ls) sp.

Definition w_ok (s : sys) (w : wait) : Prop :=
  match w with
  | WAdd ls id _ => exists sp, In sp (s_add (y_sp s)) /\ sp_id sp = id /\ same_fields ls sp /\ t_stop (y_thr s id) = false
  | WUndo id _ => exists sp, In sp (s_add (y_sp s)) /\ sp_id sp = id /\
                    t_res (y_thr s id) = Some true /\ t_stop (y_thr s id) = true
  | WChk _ _ => True
  | WRem ls id _ => id < s_next_id (y_sp s) /\ forall sp, In sp (all_spaces (y_sp s)) -> sp_id sp = id -> hits ls sp = true
  end.

Record yinv (s : sys) : Prop := {
  v_inv : inv (y_sp s);
  v_on : forall sp, In sp (s_spaces (y_sp s)) ->
    t_res (y_thr s (sp_id sp)) = Some true /\ t_stop (y_thr s (sp_id sp)) = false /\ t_exit (y_thr s (sp_id sp)) = false;
  v_rem : forall sp, In sp (s_rem (y_sp s)) ->
    t_res (y_thr s (sp_id sp)) = Some true /\ t_stop (y_thr s (sp_id sp)) = true;
  v_exit : forall id, t_exit (y_thr s id) = true ->
    t_res (y_thr s id) = Some false \/ (t_res (y_thr s id) = Some true /\ t_stop (y_thr s id) = true);
  v_wait : forall c w, In (c, w) (y_wait s) -> w_ok s w;
  v_uniq : NoDup (add_ids (y_wait s));
  v_gone : forall id, 1 <= id -> id < s_next_id (y_sp s) -> ~ In id (map sp_id (all_spaces (y_sp s))) -> t_exit (y_thr s id) = true
}.

(* ---- lists ---- *)
Lemma nodup_disj {A B} (f : A -> B) l1 l2 a b :
  NoDup (map f (l1 ++ l2)) -> In a l1 -> In b l2 -> f a <> f b.
Proof.
  intros ND Ia Ib E. rewrite map_app in ND. induction l1 as [|x l1 IH]; [destruct Ia|].
  cbn in ND. apply NoDup_cons_iff in ND. destruct ND as (N & ND). destruct Ia as [->|Ia]; [|apply IH; assumption].
  apply N. apply in_or_app. right. rewrite E. apply in_map. exact Ib.
Qed.
Lemma nodup_inj {A B} (f : A -> B) l a b : NoDup (map f l) -> In a l -> In b l -> f a = f b -> a = b.
Proof.
  induction l as [|x l IH]; intros ND Ia Ib E; [destruct Ia|]. cbn in ND. apply NoDup_cons_iff in ND. destruct ND as (N & ND).
  destruct Ia as [->|Ia], Ib as [->|Ib]; auto; exfalso; apply N.
  - rewrite E. apply in_map. exact Ib.
  - rewrite <- E. apply in_map. exact Ia.
Qed.

Lemma disj_sa st a b : inv st -> In a (s_spaces st) -> In b (s_add st) -> sp_id a <> sp_id b.
Proof.
  intros (_ & _ & H & _) Ia Ib. unfold all_spaces in H. apply (nodup_disj sp_id _ _ _ _ H Ia).
  apply in_or_app. left. exact Ib.
Qed.
Lemma disj_sr st a b : inv st -> In a (s_spaces st) -> In b (s_rem st) -> sp_id a <> sp_id b.
Proof.
  intros (_ & _ & H & _) Ia Ib. unfold all_spaces in H. apply (nodup_disj sp_id _ _ _ _ H Ia).
  apply in_or_app. right. exact Ib.
Qed.
Lemma disj_ar st a b : inv st -> In a (s_add st) -> In b (s_rem st) -> sp_id a <> sp_id b.
Proof.
  intros (_ & _ & H & _) Ia Ib. unfold all_spaces in H. rewrite app_assoc in H.
  apply (nodup_disj sp_id _ _ _ _ H); [apply in_or_app; right; exact Ia|exact Ib].
Qed.
Lemma in_all st sp : In sp (all_spaces st) <-> In sp (s_spaces st) \/ In sp (s_add st) \/ In sp (s_rem st).
Proof. unfold all_spaces. rewrite !in_app_iff. tauto. Qed.
Lemma inj_id st a b : inv st -> In a (all_spaces st) -> In b (all_spaces st) -> sp_id a = sp_id b -> a = b.
Proof. intros (_ & _ & H & _). apply nodup_inj. exact H. Qed.

Lemma in_with_id id l sp : In sp (with_id id l) <-> In sp l /\ sp_id sp = id.
Proof. unfold with_id. rewrite filter_In, N.eqb_eq. tauto. Qed.
Lemma in_remove_id id l sp : In sp (remove_id id l) <-> In sp l /\ sp_id sp <> id.
Proof. unfold remove_id. rewrite filter_In, negb_true_iff, N.eqb_neq. tauto. Qed.

Lemma take_perm {A} (k : nat) : forall (l : list A) x r, take k l = Some (x, r) -> Permutation l (x :: r).
Proof.
  induction k; intros [|y l] x r H; cbn in H; try discriminate.
  - injection H as <- <-. reflexivity.
  - destruct (take k l) as [(z, r')|] eqn:E; [|discriminate]. injection H as <- <-.
    apply IHk in E. rewrite E. apply perm_swap.
Qed.
Lemma take_in {A} (k : nat) (l : list A) x r : take k l = Some (x, r) -> In x l.
Proof. intros H. apply take_perm in H. eapply Permutation_in; [apply Permutation_sym, H|left; reflexivity]. Qed.
Lemma take_rest {A} (k : nat) (l : list A) x r y : take k l = Some (x, r) -> In y r -> In y l.
Proof. intros H I. apply take_perm in H. eapply Permutation_in; [apply Permutation_sym, H|right; exact I]. Qed.

Lemma add_ids_perm w w' : Permutation w w' -> Permutation (add_ids w) (add_ids w').
Proof. intros P. unfold add_ids. rewrite P. reflexivity. Qed.
Lemma add_ids_in w c ls id a : In (c, WAdd ls id a) w -> In id (add_ids w).
Proof. intros I. unfold add_ids. apply in_flat_map. exists (c, WAdd ls id a). split; [exact I|left; reflexivity]. Qed.
Lemma add_ids_in2 w c id a : In (c, WUndo id a) w -> In id (add_ids w).
Proof. intros I. unfold add_ids. apply in_flat_map. exists (c, WUndo id a). split; [exact I|left; reflexivity]. Qed.

(* ---- starts ---- *)
Lemma add_start_ok st ls st' :
  add_lockspace_start st ls = (LsOk, st') ->
  st' = mkSpaces (s_spaces st)
          (mkSpace (sp_name ls) (sp_path ls) (sp_offset ls) (sp_host_id ls) (s_next_id st) false false false :: s_add st)
          (s_rem st) (s_next_id st + 1).
Proof.
  unfold add_lockspace_start. intros H.
  destruct (_ || _); [discriminate|].
  repeat (match type of H with context [match ?x with _ => _ end] => destruct x; [discriminate|] end).
  injection H as <-. reflexivity.
Qed.

(* remove keeps everything but the flag *)
Lemma rem_start_ok st ls st' :
  rem_lockspace_start st ls = (LsOk, st') ->
  exists sp, hits ls sp = true /\ sp_id sp = rem_id st ls /\
  ((In sp (s_add st) /\ st' = mkSpaces (s_spaces st) (upd_id (rem_id st ls) upd_ext (s_add st)) (s_rem st) (s_next_id st)) \/
   (In sp (s_spaces st) /\ st' = mkSpaces (upd_id (rem_id st ls) upd_ext (s_spaces st)) (s_add st) (s_rem st) (s_next_id st))).
Proof.
  unfold rem_lockspace_start, rem_id, ident. intros H.
  destruct (search_space _ _ _ [s_rem st]); [discriminate|].
  destruct (search_space _ _ _ [s_add st]) as [sp|] eqn:A.
  - injection H as <-. unfold search_space in A. cbn [concat] in A. rewrite app_nil_r in A.
    apply find_some in A. exists sp. split; [apply A|]. split; [reflexivity|]. left. split; [apply A|reflexivity].
  - destruct (search_space _ _ _ [s_spaces st]) as [sp|] eqn:B; [|discriminate].
    destruct (sp_rindex_op sp); [discriminate|]. injection H as <-.
    unfold search_space in B. cbn [concat] in B. rewrite app_nil_r in B.
    apply find_some in B. exists sp. split; [apply B|]. split; [reflexivity|]. right. split; [apply B|reflexivity].
Qed.

Lemma in_upd_id id g l sp : In sp (upd_id id g l) ->
  exists sp0, In sp0 l /\ sp = (if sp_id sp0 =? id then g sp0 else sp0).
Proof. unfold upd_id. intros I. apply in_map_iff in I. destruct I as (sp0 & <- & I). eauto. Qed.
Lemma upd_id_in id g l sp0 : In sp0 l -> In (if sp_id sp0 =? id then g sp0 else sp0) (upd_id id g l).
Proof. intros I. unfold upd_id. apply in_map_iff. exists sp0. auto. Qed.

(* a change of flags: ids and the fields searched for are the same *)
Definition flags_only (g : space -> space) : Prop := forall sp, sp_id (g sp) = sp_id sp /\ same_fields sp (g sp).
Lemma ext_flags id : flags_only (fun sp => if sp_id sp =? id then upd_ext sp else sp).
Proof. intros sp. unfold same_fields. destruct (_ =? _); cbn; auto. Qed.
Lemma checked_flags shut fail : flags_only (checked shut fail).
Proof. intros sp. unfold checked, same_fields. destruct (sp_dead sp); [auto|]. destruct (_ || _); cbn; auto. Qed.
Lemma hits_same ls a b : same_fields a b -> hits ls b = hits ls a.
Proof.
  intros (E1 & E2 & E3 & E4). unfold hits, match_name, match_disk, match_host_id. rewrite E1, E2, E3, E4. reflexivity.
Qed.
Lemma name_same a b : same_fields a b -> name_of b = name_of a /\ location_of b = location_of a.
Proof. intros (E1 & E2 & E3 & E4). unfold name_of, location_of. rewrite E1, E2, E3. auto. Qed.

Lemma set_thr_same f id t : set_thr f id t id = t.
Proof. unfold set_thr. rewrite N.eqb_refl. reflexivity. Qed.
Lemma set_thr_other f id t i : i <> id -> set_thr f id t i = f i.
Proof. unfold set_thr. intros H. apply N.eqb_neq in H. rewrite H. reflexivity. Qed.
Lemma stop_thr_in f ids i : In i ids -> stop_thr f ids i = mkThr (t_res (f i)) (t_gen (f i)) true (t_exit (f i)).
Proof.
  intros I. unfold stop_thr. destruct (existsb (N.eqb i) ids) eqn:E; [reflexivity|]. exfalso.
  apply not_true_iff_false in E. apply E. apply existsb_exists. exists i. rewrite N.eqb_refl. auto.
Qed.
Lemma stop_thr_out f ids i : ~ In i ids -> stop_thr f ids i = f i.
Proof.
  intros N. unfold stop_thr. destruct (existsb (N.eqb i) ids) eqn:E; [|reflexivity]. exfalso. apply N.
  apply existsb_exists in E. destruct E as (j & I & E). apply N.eqb_eq in E. subst. exact I.
Qed.

Lemma inv_remove_add st id : inv st -> inv (add_wait_fail st id).
Proof. intros H. exact (inv_step st (OpAddFail id) H). Qed.

(* the lists unchanged, the threads changed for one id *)
Lemma yinv_thr s id t :
  yinv s ->
  (forall sp, In sp (s_spaces (y_sp s)) -> sp_id sp = id -> t_res t = Some true /\ t_stop t = false /\ t_exit t = false) ->
  (forall sp, In sp (s_rem (y_sp s)) -> sp_id sp = id -> t_res t = Some true /\ t_stop t = true) ->
  (t_exit t = true -> t_res t = Some false \/ (t_res t = Some true /\ t_stop t = true)) ->
  t_stop t = t_stop (y_thr s id) ->
  (t_res (y_thr s id) = Some true -> t_res t = Some true) ->
  (t_exit (y_thr s id) = true -> t_exit t = true) ->
  yinv (mkSys (y_sp s) (y_shut s) (set_thr (y_thr s) id t) (y_phase s) (y_wait s) (y_reply s) (y_log s) (y_used s)).
Proof.
  intros [V1 V2 V3 V4 V5 V6 V7] H1 H2 H3 H4 H5 H6. constructor; cbn; auto.
  - intros sp I. destruct (N.eq_dec (sp_id sp) id) as [E|E].
    + rewrite E, set_thr_same. eapply H1; eauto.
    + rewrite set_thr_other by exact E. auto.
  - intros sp I. destruct (N.eq_dec (sp_id sp) id) as [E|E].
    + rewrite E, set_thr_same. eapply H2; eauto.
    + rewrite set_thr_other by exact E. auto.
  - intros i. destruct (N.eq_dec i id) as [->|E]; [rewrite set_thr_same; auto|rewrite set_thr_other by exact E; auto].
  - intros c w I. specialize (V5 c w I). destruct w as [ls i a|i a|ls a|ls i a]; cbn in *; auto.
    + destruct V5 as (sp & A & B & C & D). exists sp. repeat split; auto; try apply C.
      destruct (N.eq_dec i id) as [->|E]; [rewrite set_thr_same; congruence|rewrite set_thr_other by exact E; exact D].
    + destruct V5 as (sp & A & B & C & D). exists sp. repeat split; auto.
      * destruct (N.eq_dec i id) as [->|E]; [rewrite set_thr_same; auto|rewrite set_thr_other by exact E; exact C].
      * destruct (N.eq_dec i id) as [->|E]; [rewrite set_thr_same; congruence|rewrite set_thr_other by exact E; exact D].
  - intros i A B C. specialize (V7 i A B C).
    destruct (N.eq_dec i id) as [->|E]; [rewrite set_thr_same; auto|rewrite set_thr_other by exact E; exact V7].
Qed.

(* lists and threads unchanged; fewer waits *)
Lemma yinv_plain s shut ph w rep lg us :
  yinv s -> (forall x, In x w -> In x (y_wait s)) -> NoDup (add_ids w) ->
  yinv (mkSys (y_sp s) shut (y_thr s) ph w rep lg us).
Proof. intros [V1 V2 V3 V4 V5 V6 V7] W N. constructor; cbn; auto. intros c x I. apply (V5 c x). auto. Qed.

Lemma yinv_keep s shut ph rep lg us : yinv s -> yinv (mkSys (y_sp s) shut (y_thr s) ph (y_wait s) rep lg us).
Proof. intros V. apply yinv_plain; auto. apply V. Qed.

Lemma take_nodup s k x w : yinv s -> take k (y_wait s) = Some (x, w) -> NoDup (add_ids (x :: w)).
Proof.
  intros V H. apply take_perm in H. eapply Permutation_NoDup; [apply add_ids_perm; exact H|apply V].
Qed.
Lemma nodup_tail x w : NoDup (add_ids (x :: w)) -> NoDup (add_ids w).
Proof.
  unfold add_ids. cbn. destruct (snd x); cbn; auto; intros H; apply NoDup_cons_iff in H; tauto.
Qed.

(* the entry of a finished add leaves the list, its thread has ended *)
Lemma yinv_del_add s k c w0 id w shut ph rep lg us :
  yinv s -> take k (y_wait s) = Some ((c, w0), w) -> In id (add_ids [(c, w0)]) ->
  t_exit (y_thr s id) = true ->
  yinv (mkSys (add_wait_fail (y_sp s) id) shut (y_thr s) ph w rep lg us).
Proof.
  intros V T ID EX. assert (ND := take_nodup _ _ _ _ V T). destruct V as [V1 V2 V3 V4 V5 V6 V7].
  assert (OUT : ~ In id (add_ids w)).
  { unfold add_ids in ND, ID |- *. cbn [flat_map app snd] in ND, ID. rewrite app_nil_r in ID. destruct w0; cbn in ID, ND.
    - destruct ID as [->|[]]. apply NoDup_cons_iff in ND. apply ND.
    - destruct ID as [->|[]]. apply NoDup_cons_iff in ND. apply ND.
    - destruct ID.
    - destruct ID. }
  constructor; cbn.
  - apply inv_remove_add. exact V1.
  - exact V2.
  - exact V3.
  - exact V4.
  - intros c' x I. specialize (V5 c' x (take_rest _ _ _ _ _ T I)).
    destruct x as [ls i a|i a|ls a|ls i a]; cbn in *; auto.
    + destruct V5 as (sp & A & B & C). exists sp. split; [|auto]. apply in_remove_id. split; [exact A|].
      rewrite B. intros ->. apply OUT. eapply add_ids_in; eauto.
    + destruct V5 as (sp & A & B & C). exists sp. split; [|auto]. apply in_remove_id. split; [exact A|].
      rewrite B. intros ->. apply OUT. eapply add_ids_in2; eauto.
    + destruct V5 as (A & B). split; [exact A|]. intros sp J E. apply B; [|exact E].
      rewrite in_all in *. cbn in J. rewrite in_remove_id in J. tauto.
  - eapply nodup_tail; eauto.
  - intros i A B C. destruct (N.eq_dec i id) as [->|NE]; [exact EX|]. apply V7; [exact A|exact B|].
    intros J. apply C. apply in_map_iff in J. destruct J as (sp & E & J). apply in_map_iff. exists sp. split; [exact E|].
    rewrite in_all in *. cbn. rewrite in_remove_id. destruct J as [J|[J|J]]; auto. right. left. split; [exact J|congruence].
Qed.

Lemma yinv0 : yinv sys0.
Proof.
  constructor; cbn; try tauto; try discriminate; try lia.
  - exact (inv_run []).
  - constructor.
Qed.

(* removal of a lockspace by its flag *)
Lemma yinv_rem s w c async ls :
  yinv s -> (forall x, In x w -> In x (y_wait s)) -> NoDup (add_ids w) -> yinv (do_rem s w c async ls).
Proof.
  intros V W ND. unfold do_rem. destruct (rem_lockspace_start (y_sp s) ls) as (rv, st') eqn:R.
  assert (OTHER : yinv (mkSys (y_sp s) (y_shut s) (y_thr s) (y_phase s) w (y_reply s) ((c, ASync rv) :: y_log s) (y_used s)))
    by (apply yinv_plain; auto).
  destruct rv; try exact OTHER. clear OTHER.
  assert (IV : inv st').
  { assert (X := inv_step (y_sp s) (OpRem ls) (v_inv _ V)). cbn in X. rewrite R in X. exact X. }
  destruct (rem_start_ok _ _ _ R) as (sp & HI & ID & CASES).
  set (id := rem_id (y_sp s) ls) in *.
  assert (NEW : w_ok (mkSys st' (y_shut s) (y_thr s) (y_phase s) w (y_reply s) (y_log s) (y_used s)) (WRem ls id async)).
  { cbn. assert (SPA : In sp (all_spaces (y_sp s))) by (rewrite in_all; destruct CASES as [(A & _)|(A & _)]; auto).
    assert (NX : s_next_id st' = s_next_id (y_sp s)) by (destruct CASES as [(_ & ->)|(_ & ->)]; reflexivity).
    split; [rewrite NX, <- ID; apply (v_inv _ V); exact SPA|].
    intros sp1 I E. assert (exists sp0, In sp0 (all_spaces (y_sp s)) /\ sp_id sp0 = sp_id sp1 /\ same_fields sp0 sp1) as (sp0 & A & B & C).
    { rewrite in_all in I. destruct CASES as [(_ & ->)|(_ & ->)]; cbn in I; destruct I as [I|[I|I]];
        try (exists sp1; rewrite in_all; unfold same_fields; tauto);
        apply in_upd_id in I; destruct I as (sp0 & I & E'); exists sp0; rewrite in_all;
        destruct (ext_flags id sp0) as (F1 & F2); rewrite <- E' in F1, F2; (split; [tauto|split; congruence]). }
    rewrite (hits_same ls _ _ C). assert (sp0 = sp) as -> by (apply (inj_id (y_sp s)); auto; [apply V|congruence]). exact HI. }
  assert (MAIN : forall st1, st1 = st' -> w_ok (mkSys st1 (y_shut s) (y_thr s) (y_phase s) w (y_reply s) (y_log s) (y_used s)) (WRem ls id async) ->
     yinv (mkSys st1 (y_shut s) (y_thr s) (y_phase s) ((c, WRem ls id async) :: w) (y_reply s)
             (if async then (c, AStarted id) :: y_log s else y_log s) (y_used s))).
  { intros st1 -> NW. destruct V as [V1 V2 V3 V4 V5 V6 V7].
    destruct CASES as [(IN & ->)|(IN & ->)]; constructor; cbn; auto.
    - intros c' x [E|I].
      + injection E as <- <-. exact NW.
      + specialize (V5 c' x (W _ I)). destruct x as [l i a|i a|l a|l i a]; cbn in *; auto.
        * destruct V5 as (sp1 & A & B & C & D). exists (if sp_id sp1 =? id then upd_ext sp1 else sp1).
          split; [apply upd_id_in; exact A|]. destruct (ext_flags id sp1) as (F1 & F2).
          split; [congruence|]. split; [|exact D]. unfold same_fields in *. intuition congruence.
        * destruct V5 as (sp1 & A & B & C & D). exists (if sp_id sp1 =? id then upd_ext sp1 else sp1).
          split; [apply upd_id_in; exact A|]. destruct (ext_flags id sp1) as (F1 & F2).
          split; [congruence|]. auto.
        * destruct V5 as (A & B). split; [exact A|]. intros sp1 J E. rewrite in_all in J. cbn in J.
          destruct J as [J|[J|J]]; try (apply B; [rewrite in_all; tauto|exact E]).
          apply in_upd_id in J. destruct J as (sp0 & J & E').
          destruct (ext_flags id sp0) as (F1 & F2). rewrite <- E' in F1, F2.
          rewrite (hits_same l _ _ F2). apply B; [rewrite in_all; tauto|congruence].
    - intros i A B C. apply V7; auto. intros J. apply C. unfold all_spaces in *. cbn. rewrite !map_app in *.
      rewrite upd_id_map by reflexivity. exact J.
    - intros sp1 I. apply in_upd_id in I. destruct I as (sp0 & I & ->).
      destruct (ext_flags id sp0) as (F1 & _). rewrite F1. auto.
    - intros c' x [E|I].
      + injection E as <- <-. exact NW.
      + specialize (V5 c' x (W _ I)). destruct x as [l i a|i a|l a|l i a]; cbn in *; auto.
        destruct V5 as (A & B). split; [exact A|]. intros sp1 J E. rewrite in_all in J. cbn in J.
        destruct J as [J|[J|J]]; try (apply B; [rewrite in_all; tauto|exact E]).
        apply in_upd_id in J. destruct J as (sp0 & J & E').
        destruct (ext_flags id sp0) as (F1 & F2). rewrite <- E' in F1, F2.
        rewrite (hits_same l _ _ F2). apply B; [rewrite in_all; tauto|congruence].
    - intros i A B C. apply V7; auto. intros J. apply C. unfold all_spaces in *. cbn. rewrite !map_app in *.
      rewrite upd_id_map by reflexivity. exact J. }
  apply MAIN; [reflexivity|exact NEW].
Qed.

(* one check of the main loop *)
Lemma pass_perm st shut gone fail :
  exists l, Permutation (s_spaces st) (moved gone (s_spaces st) ++ l) /\
    s_spaces (pass st shut gone fail) = map (checked shut fail) l /\
    (forall sp, In sp l -> sp_dead sp && gone (sp_id sp) = false).
Proof.
  exists (filter (fun sp => negb (sp_dead sp && gone (sp_id sp))) (s_spaces st)). split; [|split; [reflexivity|]].
  - unfold moved. induction (s_spaces st) as [|x l IH]; cbn; [reflexivity|].
    destruct (sp_dead x && gone (sp_id x)); cbn; [constructor; exact IH|].
    etransitivity; [constructor; exact IH|]. apply Permutation_middle.
  - intros sp I. apply filter_In in I. destruct I as (_ & E). apply negb_true_iff in E. exact E.
Qed.

Lemma inv_pass st shut gone fail : inv st -> inv (pass st shut gone fail).
Proof.
  intros H. destruct (pass_perm st shut gone fail) as (l & P & E & _).
  assert (H1 : inv (mkSpaces l (s_add st) (rev (moved gone (s_spaces st)) ++ s_rem st) (s_next_id st))).
  { apply (inv_perm st); [|reflexivity|exact H]. unfold all_spaces. cbn.
    rewrite <- (Permutation_rev (moved gone (s_spaces st))).
    remember (moved gone (s_spaces st)) as m eqn:Em. rewrite P.
    rewrite <- !app_assoc. rewrite (Permutation_app_swap_app m l).
    apply Permutation_app_head. apply Permutation_app_swap_app. }
  assert (M : forall A (f : space -> A), (forall sp, f (checked shut fail sp) = f sp) -> map f (map (checked shut fail) l) = map f l).
  { intros A f F. rewrite map_map. apply map_ext. exact F. }
  eapply inv_maps; [..|exact H1]; unfold all_spaces; rewrite ?E; cbn [s_spaces s_add s_rem s_next_id pass]; try reflexivity;
    rewrite !map_app, M; try reflexivity; intros sp; destruct (checked_flags shut fail sp) as (F1 & F2); try exact F1;
    apply name_same in F2; apply F2.
Qed.

Lemma yinv_step s e s' : yinv s -> ystep s e = Some s' -> yinv s'.
Proof.
  intros V H. assert (V0 := V).
  destruct e as [c async ls|id ok|id|id|k|k|c async ls|k|c async ls|k|c ls|nm|nm|gone fail| |id| | |force|c force]; cbn [ystep] in H.
  - (* EAdd *)
    destruct (add_lockspace_start (y_sp s) ls) as (rv, st') eqn:A.
    destruct rv; try (injection H as <-; apply yinv_keep; exact V).
    injection H as <-.
    assert (IV : inv st').
    { assert (X := inv_step (y_sp s) (OpAdd ls) (v_inv _ V)). cbn in X. rewrite A in X. exact X. }
    apply add_start_ok in A. subst st'. destruct V as [V1 V2 V3 V4 V5 V6 V7].
    assert (LT : forall sp, In sp (all_spaces (y_sp s)) -> sp_id sp <> s_next_id (y_sp s)).
    { intros sp I. assert (X := proj2 (proj2 (proj2 V1)) sp I). lia. }
    assert (AIDS : forall i, In i (add_ids (y_wait s)) -> i <> s_next_id (y_sp s)).
    { intros i I. unfold add_ids in I. apply in_flat_map in I. destruct I as ((c', x) & I & J).
      specialize (V5 _ _ I). destruct x; cbn in J; try destruct J as [<-|[]]; try destruct J; cbn in V5;
        destruct V5 as (sp & A & <- & _); apply LT; rewrite in_all; tauto. }
    constructor; cbn; auto.
    + intros sp I. rewrite set_thr_other; [auto|]. apply LT. rewrite in_all. tauto.
    + intros sp I. rewrite set_thr_other; [auto|]. apply LT. rewrite in_all. tauto.
    + intros i. destruct (N.eq_dec i (s_next_id (y_sp s))) as [->|E].
      * rewrite set_thr_same. discriminate.
      * rewrite set_thr_other by exact E. auto.
    + intros c' x [E|I].
      * injection E as <- <-. cbn. eexists. split; [left; reflexivity|]. cbn. unfold same_fields. cbn.
        rewrite set_thr_same. repeat split.
      * specialize (V5 _ _ I). destruct x as [l i a|i a|l a|l i a]; cbn in *; auto.
        -- rewrite set_thr_other by (apply AIDS; eapply add_ids_in; eauto).
           destruct V5 as (sp & P & Q). exists sp. split; [right; exact P|exact Q].
        -- rewrite set_thr_other by (apply AIDS; eapply add_ids_in2; eauto).
           destruct V5 as (sp & P & Q). exists sp. split; [right; exact P|exact Q].
        -- destruct V5 as (P & Q). split; [lia|]. intros sp J E. rewrite in_all in J. cbn in J.
           destruct J as [J|[[J|J]|J]]; try (apply Q; [rewrite in_all; tauto|exact E]).
           subst sp. cbn in E. lia.
    + constructor; [|exact V6]. intros I. apply (AIDS _ I). reflexivity.
    + intros i P Q R. assert (i <> s_next_id (y_sp s)).
      { intros ->. apply R. unfold all_spaces. cbn. rewrite map_app. cbn. apply in_or_app. right. left. reflexivity. }
      rewrite set_thr_other by assumption. apply V7; [exact P|lia|]. intros J. apply R.
      unfold all_spaces in *. cbn. rewrite !map_app in *. cbn. rewrite map_app, !in_app_iff in *. cbn. rewrite in_app_iff. tauto.
  - (* EJoin *)
    destruct (with_id id (s_add (y_sp s))) as [|sp0 r] eqn:WI; [discriminate|].
    destruct (t_res (y_thr s id)) eqn:TR; [discriminate|]. injection H as <-.
    assert (I0 : In sp0 (s_add (y_sp s)) /\ sp_id sp0 = id) by (apply in_with_id; rewrite WI; left; reflexivity).
    destruct I0 as (I0 & I1).
    assert (EXF : t_exit (y_thr s id) = false).
    { destruct (t_exit (y_thr s id)) eqn:E; [|reflexivity]. apply (v_exit _ V) in E. rewrite TR in E.
      destruct E as [E|(E & _)]; discriminate. }
    assert (STF : t_stop (y_thr s id) = false \/ t_stop (y_thr s id) = true) by (destruct (t_stop _); auto).
    (* the stop flag of a thread without result is not looked at by anybody; it is clear *)
    destruct V as [V1 V2 V3 V4 V5 V6 V7]. constructor; cbn; auto.
    + intros sp I. rewrite set_thr_other; [auto|]. rewrite <- I1. apply (disj_sa (y_sp s)); auto.
    + intros sp I. rewrite set_thr_other; [auto|]. rewrite <- I1. intros E. symmetry in E. revert E. apply (disj_ar (y_sp s)); auto.
    + intros i. destruct (N.eq_dec i id) as [->|E]; [rewrite set_thr_same; discriminate|rewrite set_thr_other by exact E; auto].
    + intros c w I. specialize (V5 _ _ I). destruct w as [l i a|i a|l a|l i a]; cbn in *; auto.
      * destruct V5 as (sp & P & Q & R & T). exists sp. repeat split; auto; try apply R.
        destruct (N.eq_dec i id) as [->|E]; [rewrite set_thr_same; reflexivity|rewrite set_thr_other by exact E; exact T].
      * destruct V5 as (sp & P & Q & R & T).
        assert (i <> id) by (intros ->; congruence). rewrite set_thr_other by assumption. exists sp. auto.
    + intros i P Q R. destruct (N.eq_dec i id) as [->|E]; [|rewrite set_thr_other by exact E; auto].
      exfalso. apply R. rewrite <- I1. apply in_map. rewrite in_all. tauto.
  - (* EGen *)
    destruct (t_res (y_thr s id)) as [[|]|] eqn:TR; try discriminate.
    destruct (t_exit (y_thr s id)) eqn:TE; [discriminate|]. injection H as <-.
    apply yinv_thr; auto; cbn.
    + intros sp I <-. split; [reflexivity|]. split; [apply (v_on _ V sp I)|reflexivity].
    + intros sp I <-. split; [reflexivity|]. apply (v_rem _ V sp I).
    + discriminate.
    + congruence.
  - (* EExit *)
    destruct (t_res (y_thr s id)) as [ok|] eqn:TR; [|discriminate].
    destruct ((negb ok || (t_stop (y_thr s id) && t_gen (y_thr s id))) && negb (t_exit (y_thr s id))) eqn:B; [|discriminate]. injection H as <-.
    apply andb_true_iff in B. destruct B as (B & B2).
    apply yinv_thr; auto; cbn.
    + intros sp I <-. destruct (v_on _ V sp I) as (P & Q & R). rewrite TR in P. injection P as ->.
      cbn in B. rewrite Q in B. discriminate.
    + intros sp I <-. split; [|apply (v_rem _ V sp I)]. rewrite <- TR. apply (v_rem _ V sp I).
    + intros _. destruct ok; [right|left; reflexivity]. cbn in B. apply andb_true_iff in B. tauto.
    + congruence.
  - (* EWaitAdd *)
    destruct (take k (y_wait s)) as [((c, w0), w)|] eqn:T; [|discriminate]. destruct w0 as [ls id async| | |]; try discriminate.
    destruct (t_res (y_thr s id)) as [[|]|] eqn:TR; [| |discriminate].
    + assert (ND := take_nodup _ _ _ _ V T).
      assert (WA := v_wait _ V _ _ (take_in _ _ _ _ T)). cbn in WA. destruct WA as (sp0 & A1 & A2 & A3 & A4).
      assert (OUT : ~ In id (add_ids w)) by (unfold add_ids in ND; cbn in ND; apply NoDup_cons_iff in ND; apply ND).
      assert (OFF : forall sp, In sp (s_spaces (y_sp s)) -> sp_id sp <> id)
        by (intros sp I; rewrite <- A2; apply (disj_sa (y_sp s)); auto; apply V).
      assert (OFR : forall sp, In sp (s_rem (y_sp s)) -> sp_id sp <> id)
        by (intros sp I E; rewrite <- A2 in E; symmetry in E; revert E; apply (disj_ar (y_sp s)); auto; apply V).
      destruct (existsb sp_external_remove _ || negb (y_shut s =? 0)) eqn:B; injection H as <-.
      * destruct V as [V1 V2 V3 V4 V5 V6 V7]. constructor; cbn; auto.
        -- intros sp I. rewrite stop_thr_out; [auto|]. intros [E|[]]. apply (OFF sp I). auto.
        -- intros sp I. rewrite stop_thr_out; [auto|]. intros [E|[]]. apply (OFR sp I). auto.
        -- intros i. destruct (N.eq_dec i id) as [->|E].
           ++ rewrite stop_thr_in by (left; reflexivity). cbn. intros X. right. auto.
           ++ rewrite stop_thr_out by (intros [X|[]]; congruence). auto.
        -- intros c' x [E|I].
           ++ injection E as <- <-. cbn. exists sp0. rewrite stop_thr_in by (left; reflexivity). cbn. auto.
           ++ specialize (V5 _ _ (take_rest _ _ _ _ _ T I)). destruct x as [l i a|i a|l a|l i a]; cbn in *; auto.
              ** rewrite stop_thr_out; [exact V5|]. intros [<-|[]]. apply OUT. eapply add_ids_in; eauto.
              ** rewrite stop_thr_out; [exact V5|]. intros [<-|[]]. apply OUT. eapply add_ids_in2; eauto.
        -- intros i P Q R. specialize (V7 i P Q R). destruct (N.eq_dec i id) as [->|E].
           ++ rewrite stop_thr_in by (left; reflexivity). exact V7.
           ++ rewrite stop_thr_out by (intros [X|[]]; congruence). exact V7.
      * apply orb_false_iff in B. destruct B as (B & _).
        assert (IV : inv (mkSpaces (with_id id (s_add (y_sp s)) ++ s_spaces (y_sp s)) (remove_id id (s_add (y_sp s))) (s_rem (y_sp s)) (s_next_id (y_sp s)))).
        { assert (X := inv_step (y_sp s) (OpAddOk id) (v_inv _ V)). cbn in X. unfold add_wait_ok in X. rewrite B in X. exact X. }
        destruct V as [V1 V2 V3 V4 V5 V6 V7]. constructor; cbn; auto.
        -- intros sp I. apply in_app_iff in I. destruct I as [I|I]; [|auto].
           apply in_with_id in I. destruct I as (_ & ->). split; [exact TR|]. split; [exact A4|].
           destruct (t_exit (y_thr s id)) eqn:E; [|reflexivity]. apply V4 in E. rewrite TR, A4 in E.
           destruct E as [E|(_ & E)]; discriminate.
        -- intros c' x I. specialize (V5 _ _ (take_rest _ _ _ _ _ T I)). destruct x as [l i a|i a|l a|l i a]; cbn in *; auto.
           ++ destruct V5 as (sp & P & Q & R). exists sp. split; [|auto]. apply in_remove_id. split; [exact P|].
              rewrite Q. intros ->. apply OUT. eapply add_ids_in; eauto.
           ++ destruct V5 as (sp & P & Q & R). exists sp. split; [|auto]. apply in_remove_id. split; [exact P|].
              rewrite Q. intros ->. apply OUT. eapply add_ids_in2; eauto.
           ++ destruct V5 as (P & Q). split; [exact P|]. intros sp J E. apply Q; [|exact E].
              rewrite in_all in *. cbn in J. rewrite in_app_iff, in_with_id, in_remove_id in J. tauto.
        -- eapply nodup_tail; eauto.
        -- intros i P Q R. apply V7; auto. intros J. apply R. apply in_map_iff in J. destruct J as (sp & E & J).
           apply in_map_iff. exists sp. split; [exact E|]. rewrite in_all in *. cbn.
           rewrite in_app_iff, in_with_id, in_remove_id. destruct (N.eq_dec (sp_id sp) id); tauto.
    + destruct (t_exit (y_thr s id)) eqn:TE; [|discriminate]. injection H as <-.
      eapply yinv_del_add; eauto. left. reflexivity.
  - (* EUndo *)
    destruct (take k (y_wait s)) as [((c, w0), w)|] eqn:T; [|discriminate]. destruct w0 as [|id async| |]; try discriminate.
    destruct (t_exit (y_thr s id)) eqn:TE; [|discriminate]. injection H as <-.
    eapply yinv_del_add; eauto. left. reflexivity.
  - (* EUnused *)
    destruct (existsb _ (y_used s)); injection H as <-; [apply yinv_keep; exact V|].
    destruct V as [V1 V2 V3 V4 V5 V6 V7]. constructor; cbn; auto.
    intros c' x [E|I]; [injection E as <- <-; exact Logic.I|exact (V5 _ _ I)].
  - (* EChkRem *)
    destruct (take k (y_wait s)) as [((c, w0), w)|] eqn:T; [|discriminate]. destruct w0 as [| |ls async|]; try discriminate.
    injection H as <-. apply yinv_rem; [exact V| |].
    + intros x I. eapply take_rest; eauto.
    + eapply nodup_tail. eapply take_nodup; eauto.
  - (* ERem *)
    injection H as <-. apply yinv_rem; auto. apply V.
  - (* EWaitRem *)
    destruct (take k (y_wait s)) as [((c, w0), w)|] eqn:T; [|discriminate]. destruct w0 as [| | |ls id async]; try discriminate.
    assert (F : yinv (mkSys (y_sp s) (y_shut s) (y_thr s) (y_phase s) w (y_reply s)
                        (answer_if async c (ARemoved id) (y_log s)) (y_used s))).
    { apply yinv_plain; [exact V| |].
      + intros x I. eapply take_rest; eauto.
      + eapply nodup_tail. eapply take_nodup; eauto. }
    destruct (ident _ _) as [sp|]; [destruct (sp_id sp =? id); [discriminate|]|]; injection H as <-; exact F.
  - injection H as <-. apply yinv_keep; exact V.
  - destruct (search_space _ _ _ _) as [sp|]; [|discriminate]. destruct (sp_dead sp); [discriminate|].
    injection H as <-. apply yinv_keep; exact V.
  - injection H as <-. apply yinv_keep; exact V.
  - (* EPass *)
    destruct (y_phase s); try discriminate. injection H as <-.
    destruct (pass_perm (y_sp s) (y_shut s) gone fail) as (l & P & E & LD).
    assert (IV := inv_pass (y_sp s) (y_shut s) gone fail (v_inv _ V)).
    destruct V as [V1 V2 V3 V4 V5 V6 V7].
    assert (MI : forall sp, In sp (moved gone (s_spaces (y_sp s))) -> In sp (s_spaces (y_sp s)))
      by (intros sp I; unfold moved in I; apply filter_In in I; apply I).
    assert (LI : forall sp, In sp l -> In sp (s_spaces (y_sp s)))
      by (intros sp I; eapply Permutation_in; [apply Permutation_sym, P|]; apply in_or_app; right; exact I).
    assert (NM : forall sp, In sp l -> ~ In (sp_id sp) (map sp_id (moved gone (s_spaces (y_sp s))))).
    { intros sp I J. apply in_map_iff in J. destruct J as (sp' & EQ & J).
      assert (ND : NoDup (map sp_id (moved gone (s_spaces (y_sp s)) ++ l))).
      { eapply Permutation_NoDup; [apply Permutation_map, P|].
        destruct V1 as (_ & _ & X & _). unfold all_spaces in X. rewrite map_app in X.
        rewrite <- (rev_involutive (map sp_id (s_spaces (y_sp s)))). apply NoDup_rev.
        apply NoDup_rev in X. rewrite rev_app_distr in X. apply NoDup_app_remove_l in X. exact X. }
      exact (nodup_disj sp_id _ _ _ _ ND J I EQ). }
    assert (NOT : forall i, (forall sp, In sp (s_spaces (y_sp s)) -> sp_id sp <> i) ->
              ~ In i (map sp_id (moved gone (s_spaces (y_sp s))))).
    { intros i X J. apply in_map_iff in J. destruct J as (sp' & EQ & J). exact (X sp' (MI _ J) EQ). }
    constructor; cbn.
    + exact IV.
    + intros sp I. change (In sp (s_spaces (pass (y_sp s) (y_shut s) gone fail))) in I. rewrite E in I.
      apply in_map_iff in I. destruct I as (sp0 & <- & I). destruct (checked_flags (y_shut s) fail sp0) as (F & _).
      rewrite F, stop_thr_out by (apply NM; exact I). auto.
    + intros sp I. apply in_app_iff in I. destruct I as [I|I].
      * rewrite <- in_rev in I. rewrite stop_thr_in by (apply in_map; exact I). cbn.
        split; [apply V2; auto|reflexivity].
      * rewrite stop_thr_out; [auto|]. apply NOT. intros sp' I'. apply (disj_sr (y_sp s)); auto.
    + intros i X. destruct (in_dec N.eq_dec i (map sp_id (moved gone (s_spaces (y_sp s))))) as [J|J].
      * rewrite stop_thr_in in X |- * by exact J. cbn in *. apply V4 in X. tauto.
      * rewrite stop_thr_out in X |- * by exact J. auto.
    + intros c w I. specialize (V5 _ _ I). destruct w as [ls i a|i a|ls a|ls i a]; cbn in V5 |- *; auto.
      * destruct V5 as (sp & A & B & C & D). exists sp. repeat split; auto; try apply C.
        rewrite stop_thr_out; [exact D|]. apply NOT. intros sp' I'. rewrite <- B. apply (disj_sa (y_sp s)); auto.
      * destruct V5 as (sp & A & B & C & D). exists sp.
        rewrite stop_thr_out; [auto|]. apply NOT. intros sp' I'. rewrite <- B. apply (disj_sa (y_sp s)); auto.
      * destruct V5 as (A & B). split; [exact A|]. intros sp J EQ. rewrite in_all in J. cbn in J.
        change (map (checked (y_shut s) fail) (filter (fun sp0 => negb (sp_dead sp0 && gone (sp_id sp0))) (s_spaces (y_sp s))))
          with (s_spaces (pass (y_sp s) (y_shut s) gone fail)) in J.
        rewrite E, in_app_iff, <- in_rev in J. destruct J as [J|[J|[J|J]]].
        -- apply in_map_iff in J. destruct J as (sp0 & <- & J). destruct (checked_flags (y_shut s) fail sp0) as (F1 & F2).
           rewrite (hits_same ls _ _ F2). apply B; [rewrite in_all; auto|congruence].
        -- apply B; [rewrite in_all; auto|exact EQ].
        -- apply B; [rewrite in_all; auto|exact EQ].
        -- apply B; [rewrite in_all; auto|exact EQ].
    + exact V6.
    + intros i A B C.
      assert (NI : ~ In i (map sp_id (all_spaces (y_sp s)))).
      { intros J. apply C. apply in_map_iff in J. destruct J as (sp & <- & J). rewrite in_all in J.
        destruct J as [J|J].
        - eapply Permutation_in in J; [|exact P]. apply in_app_iff in J. destruct J as [J|J].
          + apply in_map. rewrite in_all. cbn. rewrite in_app_iff, <- in_rev. tauto.
          + destruct (checked_flags (y_shut s) fail sp) as (F & _). rewrite <- F. apply in_map. rewrite in_all. left.
            rewrite E. apply in_map. exact J.
        - apply in_map. rewrite in_all. cbn. rewrite in_app_iff. tauto. }
      rewrite stop_thr_out; [apply V7; auto|]. apply NOT. intros sp I <-. apply NI. apply in_map. rewrite in_all. auto.
  - (* ETest *)
    destruct (y_phase s); try discriminate. destruct (negb (y_shut s =? 0) && empty); injection H as <-; apply yinv_keep; exact V.
  - (* EFree *)
    destruct (y_phase s); try discriminate. destruct (with_id id (s_rem (y_sp s))) as [|sp0 r] eqn:WI; [discriminate|].
    destruct (t_exit (y_thr s id)) eqn:TE; [|discriminate]. injection H as <-.
    assert (I0 : In sp0 (s_rem (y_sp s)) /\ sp_id sp0 = id) by (apply in_with_id; rewrite WI; left; reflexivity).
    destruct I0 as (I0 & I1). destruct V as [V1 V2 V3 V4 V5 V6 V7]. constructor; cbn; auto.
    + exact (inv_step (y_sp s) (OpFree id) V1).
    + intros sp I. apply in_remove_id in I. apply V3. apply I.
    + intros c w I. specialize (V5 _ _ I). destruct w as [ls i a|i a|ls a|ls i a]; cbn in *; auto.
      destruct V5 as (A & B). split; [exact A|]. intros sp J E. apply B; [|exact E]. rewrite in_all in *. cbn in J.
      rewrite in_remove_id in J. tauto.
    + intros i A B C. destruct (N.eq_dec i id) as [->|NE]; [exact TE|]. apply V7; auto.
      intros J. apply C. apply in_map_iff in J. destruct J as (sp & E & J). apply in_map_iff. exists sp. split; [exact E|].
      rewrite in_all in *. cbn. rewrite in_remove_id. destruct J as [J|[J|J]]; auto. right. right. split; [exact J|congruence].
  - (* EEnd *)
    destruct (y_phase s); try discriminate.
    destruct (forallb (fun sp => t_exit (y_thr s (sp_id sp))) (s_rem (y_sp s))) eqn:FE; [|discriminate]. injection H as <-.
    rewrite forallb_forall in FE. destruct V as [V1 V2 V3 V4 V5 V6 V7]. constructor; cbn; auto; try tauto.
    + eapply (inv_drop (y_sp s) _ (s_rem (y_sp s))); [|reflexivity|exact V1]. unfold all_spaces. cbn. rewrite app_nil_r.
      rewrite app_assoc. apply Permutation_app_comm.
    + intros c w I. specialize (V5 _ _ I). destruct w as [ls i a|i a|ls a|ls i a]; cbn in *; auto.
      destruct V5 as (A & B). split; [exact A|]. intros sp J E. apply B; [|exact E]. rewrite in_all in *. cbn in J. tauto.
    + intros i A B C. destruct (in_dec N.eq_dec i (map sp_id (s_rem (y_sp s)))) as [J|J].
      * apply in_map_iff in J. destruct J as (sp & <- & J). apply FE. exact J.
      * apply V7; auto. intros X. unfold all_spaces in *. cbn in *. rewrite app_nil_r in C. rewrite !map_app in *.
        rewrite !in_app_iff in *. tauto.
  - injection H as <-. apply yinv_keep; exact V.
  - destruct (y_phase s); try discriminate. injection H as <-. apply yinv_keep; exact V.
  - destruct (force || lists_empty (y_sp s)); injection H as <-; apply yinv_keep; exact V.
Qed.

Lemma yinv_run es : forall s s', yinv s -> yrun s es = Some s' -> yinv s'.
Proof.
  induction es as [|e r IH]; intros s s' V H; cbn in H; [congruence|].
  destruct (ystep s e) as [s1|] eqn:E; [|discriminate]. eapply IH; [|exact H]. eapply yinv_step; eauto.
Qed.
