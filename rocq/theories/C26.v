(* C26: lockspaces are unique per daemon. *)
From Coq Require Import List NArith ZArith Lia Bool ZifyBool ZifyN Permutation.
From Verif Require Import Bytes Codec Leader Lockspaces.
Import ListNotations.
Open Scope N_scope.
Local Opaque strncmp_eq cstr.

(* specification: the name as a C string of at most 48 characters, the disk
   location as path string and offset *)
Definition name_of (sp : space) : bytes := cstr NAME_ID_SIZE (sp_name sp).
Definition location_of (sp : space) : bytes * N := (cstr SANLK_PATH_LEN (sp_path sp), sp_offset sp).

Definition inv (st : spaces) : Prop :=
  NoDup (map name_of (all_spaces st)) /\ NoDup (map location_of (all_spaces st)) /\
  NoDup (map sp_id (all_spaces st)) /\ (forall sp, In sp (all_spaces st) -> sp_id sp < s_next_id st).

Lemma split_id id l : Permutation (with_id id l ++ remove_id id l) l.
Proof.
  induction l as [|x l IH]; cbn; auto. destruct (sp_id x =? id); cbn [negb].
  - cbn. constructor. exact IH.
  - symmetry. etransitivity; [|apply Permutation_middle]. constructor. symmetry. exact IH.
Qed.

Lemma inv_perm st st' :
  Permutation (all_spaces st') (all_spaces st) -> s_next_id st' = s_next_id st -> inv st -> inv st'.
Proof.
  intros P E (H1 & H2 & H3 & H4). unfold inv.
  assert (PM : forall A (f : space -> A), Permutation (map f (all_spaces st)) (map f (all_spaces st')))
    by (intros; apply Permutation_map, Permutation_sym, P).
  repeat split; try (eapply Permutation_NoDup; [apply PM|auto]).
  intros sp I. rewrite E. apply H4. eapply Permutation_in; eauto.
Qed.

Lemma NoDup_app_remove_l {A} (l l' : list A) : NoDup (l ++ l') -> NoDup l'.
Proof. induction l; cbn; auto. intros H. apply NoDup_cons_iff in H. tauto. Qed.

(* dropping elements *)
Lemma inv_drop st st' d :
  Permutation (all_spaces st) (d ++ all_spaces st') -> s_next_id st' = s_next_id st -> inv st -> inv st'.
Proof.
  intros P E (H1 & H2 & H3 & H4). unfold inv.
  assert (PM : forall A (f : space -> A), NoDup (map f (all_spaces st)) -> NoDup (map f (all_spaces st'))).
  { intros A f H. eapply Permutation_NoDup in H; [|apply Permutation_map, P].
    rewrite map_app in H. apply NoDup_app_remove_l in H. auto. }
  repeat split; auto.
  intros sp I. rewrite E. apply H4. eapply Permutation_in; [apply Permutation_sym, P|].
  apply in_or_app; auto.
Qed.

(* changing only flags *)
Lemma upd_id_map {A} (f : space -> A) id g l :
  (forall sp, f (g sp) = f sp) -> map f (upd_id id g l) = map f l.
Proof. intros H. unfold upd_id. rewrite map_map. apply map_ext. intros sp. destruct (_ =? _); auto. Qed.

Lemma inv_maps st st' :
  map name_of (all_spaces st') = map name_of (all_spaces st) ->
  map location_of (all_spaces st') = map location_of (all_spaces st) ->
  map sp_id (all_spaces st') = map sp_id (all_spaces st) ->
  s_next_id st' = s_next_id st -> inv st -> inv st'.
Proof.
  intros E1 E2 E3 E4 (H1 & H2 & H3 & H4). unfold inv. rewrite E1, E2, E3, E4.
  repeat split; auto. intros sp I. apply (in_map sp_id) in I. rewrite E3 in I.
  apply in_map_iff in I. destruct I as (sp' & <- & I). auto.
Qed.

Lemma search_none_name st n :
  search_space (Some n) None 0 [s_spaces st; s_add st; s_rem st] = None ->
  ~ In (cstr NAME_ID_SIZE n) (map name_of (all_spaces st)).
Proof.
  unfold search_space. cbn [concat]. rewrite app_nil_r. intros F I.
  apply in_map_iff in I. destruct I as (sp & E & I).
  pose proof (find_none _ _ F sp I) as X. cbn in X.
  rewrite !andb_true_r in X. apply not_true_iff_false in X. apply X.
  apply strncmp_eq_spec. exact E.
Qed.

Lemma search_none_disk st p o :
  search_space None (Some (p, o)) 0 [s_spaces st; s_add st; s_rem st] = None ->
  ~ In (cstr SANLK_PATH_LEN p, o) (map location_of (all_spaces st)).
Proof.
  unfold search_space. cbn [concat]. rewrite app_nil_r. intros F I.
  apply in_map_iff in I. destruct I as (sp & E & I).
  pose proof (find_none _ _ F sp I) as X. cbn in X.
  rewrite andb_true_r in X. apply not_true_iff_false in X. apply X.
  injection E as E1 E2. apply andb_true_intro. split; [apply strncmp_eq_spec; exact E1|lia].
Qed.

Ltac maps := unfold all_spaces; cbn [snd s_spaces s_add s_rem s_next_id]; rewrite ?map_app, ?upd_id_map; auto.

Lemma inv_step st op : inv st -> inv (ls_step st op).
Proof.
  intros H. destruct op; cbn [ls_step].
  - unfold add_lockspace_start.
    destruct (_ || _); [auto|].
    destruct (search_space _ _ _ [s_spaces st]); [auto|].
    destruct (search_space _ _ _ [s_add st]); [auto|].
    destruct (search_space _ _ _ [s_rem st]); [auto|].
    destruct (search_space (Some _) None 0 _) eqn:E1; [auto|].
    destruct (search_space None _ 0 _) eqn:E2; [auto|].
    apply search_none_name in E1. apply search_none_disk in E2.
    destruct H as (H1 & H2 & H3 & H4). cbn [snd].
    set (sp := mkSpace _ _ _ _ _ _ _ _).
    assert (P : Permutation (sp :: all_spaces st) (all_spaces
       {| s_spaces := s_spaces st; s_add := sp :: s_add st; s_rem := s_rem st; s_next_id := s_next_id st + 1 |})).
    { unfold all_spaces. cbn. apply Permutation_middle. }
    unfold inv.
    assert (PM : forall A (f : space -> A), ~ In (f sp) (map f (all_spaces st)) -> NoDup (map f (all_spaces st)) ->
      NoDup (map f (all_spaces
       {| s_spaces := s_spaces st; s_add := sp :: s_add st; s_rem := s_rem st; s_next_id := s_next_id st + 1 |}))).
    { intros A f NI ND. eapply Permutation_NoDup; [apply Permutation_map, P|]. cbn [map]. constructor; auto. }
    repeat split; try (apply PM; auto).
    + intros I. apply in_map_iff in I. destruct I as (x & E & I). specialize (H4 x I). cbn in E. lia.
    + intros x I. apply Permutation_sym in P. eapply Permutation_in in I; [|apply P].
      cbn [s_next_id]. destruct I as [<-|I]; [cbn; lia|]. specialize (H4 x I). lia.
  - unfold add_wait_ok. destruct existsb.
    + eapply (inv_drop st _ (with_id id (s_add st))); auto. unfold all_spaces. cbn.
      rewrite <- (split_id id (s_add st)) at 1. rewrite <- app_assoc.
      rewrite Permutation_app_swap_app. reflexivity.
    + apply (inv_perm st); [|reflexivity|exact H]. unfold all_spaces. cbn.
      rewrite <- (split_id id (s_add st)) at 3. rewrite <- !app_assoc.
      apply Permutation_app_swap_app.
  - unfold add_wait_fail.
    eapply (inv_drop st _ (with_id id (s_add st))); auto. unfold all_spaces. cbn.
    rewrite <- (split_id id (s_add st)) at 1. rewrite <- app_assoc.
    rewrite Permutation_app_swap_app. reflexivity.
  - unfold rem_lockspace_start.
    repeat match goal with |- context [match search_space ?a ?b ?c ?d with _ => _ end] =>
             destruct (search_space a b c d) end; auto;
      try match goal with |- context [if ?b then _ else _] => destruct b end; auto;
      apply (inv_maps st); [..|exact H]; maps.
  - apply (inv_maps st); [..|exact H]; unfold main_dead; maps.
  - unfold main_move_rem. apply (inv_perm st); [|reflexivity|exact H]. unfold all_spaces. cbn.
    rewrite <- (split_id id (s_spaces st)) at 3. rewrite <- !app_assoc.
    rewrite (Permutation_app_swap_app (s_add st) (with_id id (s_spaces st))).
    apply Permutation_app_swap_app.
  - unfold free_lockspace.
    eapply (inv_drop st _ (with_id id (s_rem st))); auto. unfold all_spaces. cbn.
    rewrite <- (split_id id (s_rem st)) at 1.
    rewrite (Permutation_app_swap_app (s_add st)), (Permutation_app_swap_app (s_spaces st)). reflexivity.
  - unfold begin_rindex_op. destruct search_space; [|auto]. destruct sp_dead; [auto|].
    destruct sp_rindex_op; [auto|]. apply (inv_maps st); [..|exact H]; maps.
  - unfold clear_rindex_op. destruct search_space; [|auto]. apply (inv_maps st); [..|exact H]; maps.
Qed.

Lemma inv_run ops : inv (ls_run ops).
Proof.
  unfold ls_run. induction ops as [|op ops IH] using rev_ind.
  - cbn. unfold inv. cbn. repeat split; try constructor; try tauto.
  - rewrite fold_left_app. cbn. apply inv_step. exact IH.
Qed.

(* For every history of joins, completions, failures, removals: two list
   positions with the same name or the same location are the same position. *)
Theorem C26_lockspaces_unique :
  forall ops i j a b,
    nth_error (all_spaces (ls_run ops)) i = Some a ->
    nth_error (all_spaces (ls_run ops)) j = Some b ->
    (name_of a = name_of b \/ location_of a = location_of b) -> i = j.
Proof.
  intros ops i j a b Ha Hb E. destruct (inv_run ops) as (H1 & H2 & _).
  destruct E as [E|E].
  - eapply (proj1 (NoDup_nth_error _) H1); [apply nth_error_Some; rewrite nth_error_map, Ha; discriminate|].
    rewrite !nth_error_map, Ha, Hb. cbn. congruence.
  - eapply (proj1 (NoDup_nth_error _) H2); [apply nth_error_Some; rewrite nth_error_map, Ha; discriminate|].
    rewrite !nth_error_map, Ha, Hb. cbn. congruence.
Qed.

(* and the join is accepted exactly when name and location are new; the error
   tells a repeated join in which phase the identical lockspace is *)
Definition same_lockspace (ls sp : space) : Prop :=
  name_of sp = name_of ls /\ location_of sp = location_of ls /\ sp_host_id sp = sp_host_id ls.

Lemma id_search ls l :
  sp_host_id ls <> 0 ->
  (exists sp, search_space (Some (sp_name ls)) (Some (sp_path ls, sp_offset ls)) (sp_host_id ls) [l] = Some sp)
  <-> exists sp, In sp l /\ same_lockspace ls sp.
Proof.
  intros Hz. unfold search_space. cbn [concat]. rewrite app_nil_r. unfold same_lockspace, name_of, location_of.
  split.
  - intros (sp & F). apply find_some in F. destruct F as [I F]. exists sp. split; auto.
    unfold match_name, match_disk, match_host_id in F.
    rewrite !andb_true_iff, !strncmp_eq_spec in F. destruct F as [[F1 [F2 F3]] F4].
    apply N.eqb_eq in F3. split; [auto|]. split; [congruence|lia].
  - intros (sp & I & E1 & E2 & E3).
    destruct find eqn:F; [eauto|]. exfalso. pose proof (find_none _ _ F sp I) as X. cbn in X.
    apply not_true_iff_false in X. apply X. injection E2 as E2 E4.
    unfold match_name, match_disk, match_host_id.
    rewrite !andb_true_iff, !strncmp_eq_spec. repeat split; auto; lia.
Qed.

Theorem C26_join_accepted_iff_new :
  forall st ls,
    sp_host_id ls <> 0 -> is_empty (sp_name ls) = false -> is_empty (sp_path ls) = false ->
    (fst (add_lockspace_start st ls) = LsOk <->
     forall sp, In sp (all_spaces st) -> name_of sp <> name_of ls /\ location_of sp <> location_of ls).
Proof.
  intros st ls Hz Hn Hp. unfold add_lockspace_start. rewrite Hn, Hp.
  replace (sp_host_id ls =? 0) with false by lia. cbn [orb].
  assert (K : forall l, (forall sp, In sp l -> In sp (all_spaces st)) -> forall x,
     search_space (Some (sp_name ls)) (Some (sp_path ls, sp_offset ls)) (sp_host_id ls) [l] = Some x ->
     exists sp, In sp (all_spaces st) /\ same_lockspace ls sp).
  { intros l Hl x F. destruct (proj1 (id_search ls l Hz) (ex_intro _ x F)) as (sp & I & S). eauto. }
  assert (Bad : (exists sp, In sp (all_spaces st) /\ (name_of sp = name_of ls \/ location_of sp = location_of ls)) ->
     ~ forall sp, In sp (all_spaces st) -> name_of sp <> name_of ls /\ location_of sp <> location_of ls).
  { intros (sp & I & E) A. destruct (A sp I). tauto. }
  destruct (search_space _ _ _ [s_spaces st]) eqn:F1.
  { apply K in F1; [|intros; unfold all_spaces; rewrite !in_app_iff; auto].
    destruct F1 as (x & I & S1 & _). split; [discriminate|]. intros A. exfalso. revert A. apply Bad. eauto. }
  destruct (search_space _ _ _ [s_add st]) eqn:F2.
  { apply K in F2; [|intros; unfold all_spaces; rewrite !in_app_iff; auto].
    destruct F2 as (x & I & S1 & _). split; [discriminate|]. intros A. exfalso. revert A. apply Bad. eauto. }
  destruct (search_space _ _ _ [s_rem st]) eqn:F3.
  { apply K in F3; [|intros; unfold all_spaces; rewrite !in_app_iff; auto].
    destruct F3 as (x & I & S1 & _). split; [discriminate|]. intros A. exfalso. revert A. apply Bad. eauto. }
  destruct (search_space (Some _) None 0 _) eqn:F4.
  { split; [discriminate|]. intros A. exfalso. revert A. apply Bad.
    unfold search_space in F4. cbn [concat] in F4. rewrite app_nil_r in F4. apply find_some in F4.
    destruct F4 as [I F4]. cbn in F4. rewrite !andb_true_r in F4. apply strncmp_eq_spec in F4.
    exists s. split; [exact I|left; exact F4]. }
  destruct (search_space None _ 0 _) eqn:F5.
  { split; [discriminate|]. intros A. exfalso. revert A. apply Bad.
    unfold search_space in F5. cbn [concat] in F5. rewrite app_nil_r in F5. apply find_some in F5.
    destruct F5 as [I F5]. cbn in F5. rewrite !andb_true_r in F5. apply andb_prop in F5.
    destruct F5 as [F5 F6]. apply strncmp_eq_spec in F5. exists s. split; [exact I|right].
    unfold location_of. f_equal; [exact F5|lia]. }
  split; auto. intros _ sp I. apply search_none_name in F4. apply search_none_disk in F5.
  split; intros E.
  - apply F4. change (cstr NAME_ID_SIZE (sp_name ls)) with (name_of ls). rewrite <- E. apply in_map. auto.
  - apply F5. change (cstr SANLK_PATH_LEN (sp_path ls), sp_offset ls) with (location_of ls).
    rewrite <- E. apply in_map. auto.
Qed.

Definition ls_a : space := mkSpace [97;0] [47;97;0] 0 1 0 false false false.
Definition ls_b : space := mkSpace [98;0] [47;98;0] 0 1 0 false false false.
Example C26_nonvacuous :
  length (all_spaces (ls_run [OpAdd ls_a; OpAddOk 1; OpAdd ls_b; OpAdd ls_a; OpMoveRem 1])) = 2%nat /\
  fst (add_lockspace_start (ls_run [OpAdd ls_a; OpAddOk 1; OpMoveRem 1]) ls_a) = LsEAGAIN /\
  fst (add_lockspace_start (ls_run [OpAdd ls_a; OpAddOk 1]) ls_a) = LsEEXIST /\
  fst (add_lockspace_start (ls_run [OpAdd ls_a; OpAddOk 1; OpMoveRem 1; OpFree 1]) ls_a) = LsOk.
Proof. vm_compute. auto. Qed.

Print Assumptions C26_lockspaces_unique.
Print Assumptions C26_join_accepted_iff_new.
