(* C85: what the commands for lockspaces answer is true, and the daemon ends without
   leaving a lockspace behind. *)
From Coq Require Import List NArith ZArith Lia Bool ZifyBool ZifyN.
From Verif Require Import Bytes Codec Leader Lockspaces C26 SpaceLife SpaceLifeProof.
Import ListNotations.
Open Scope N_scope.

(* ---- specification ---- *)
Definition yreach (s : sys) : Prop := exists es, yrun sys0 es = Some s.

(* the daemon is a member: the host id lease is held, the thread renews it *)
Definition member (s : sys) (id : N) : Prop :=
  t_res (y_thr s id) = Some true /\ t_stop (y_thr s id) = false /\ t_exit (y_thr s id) = false.
Definition listed (s : sys) (id : N) : Prop := In id (map sp_id (all_spaces (y_sp s))).
(* the daemon has left: nothing listed and the thread, which gives back the host id as
   its last act, has ended *)
Definition left (s : sys) (id : N) : Prop := ~ listed s id /\ t_exit (y_thr s id) = true.
(* all clients have been served *)
Definition idle (s : sys) : Prop := y_wait s = [].

Definition C85_end_statement : Prop := forall s,
  yreach s -> y_phase s = PDone -> idle s -> forall id, 1 <= id -> id < s_next_id (y_sp s) -> left s id.
(* a forced shutdown, once accepted, ends the daemon at the first check that finds no lockspace *)
Definition C85_forced_statement : Prop := forall s c es s1 s2 s3,
  yreach s -> ystep s (EShutWait c true) = Some s1 -> yrun s1 es = Some s2 ->
  y_phase s2 = PTest true -> ystep s2 ETest = Some s3 -> y_phase s3 = PEnd.
(* every accepted shutdown with wait is answered at the end *)
Definition C85_reply_statement : Prop := forall s c es s1 s2,
  yreach s -> ystep s (EShutWait c false) = Some s1 -> y_log s1 = y_log s -> yrun s1 es = Some s2 ->
  y_phase s2 = PDone -> In (c, AShut) (y_log s2).
(* a lockspace is removed with "unused" only if no resource uses it *)
Definition C85_unused_statement : Prop := forall s k c ls a w s',
  yreach s -> take k (y_wait s) = Some ((c, WChk ls a), w) -> ystep s (EChkRem k) = Some s' ->
  existsb (fun n => strncmp_eq NAME_ID_SIZE n (sp_name ls)) (y_used s) = true ->
  y_log s' = (c, ASync LsEBUSY) :: y_log s.
(* a lockspace that can be used has its generation *)
Definition C85_generation_statement : Prop := forall s sp,
  yreach s -> In sp (s_spaces (y_sp s)) -> t_gen (y_thr s (sp_id sp)) = true.

(* ---- proofs ---- *)
Local Opaque strncmp_eq cstr.

Lemma reach_inv s : yreach s -> yinv s.
Proof. intros (es & H). eapply yinv_run; [apply yinv0|exact H]. Qed.

Lemma log_same {A} (x : A) l : l = x :: l -> False.
Proof. intros H. apply (f_equal (@length A)) in H. cbn in H. lia. Qed.

(* add answered 0: this very lockspace is in use and its lease is held *)
Theorem C85_added : forall s e s' c id,
  yreach s -> ystep s e = Some s' -> y_log s' = (c, AAdded id) :: y_log s ->
  member s' id /\
  exists ls a sp, In (c, WAdd ls id a) (y_wait s) /\ In sp (s_spaces (y_sp s')) /\ sp_id sp = id /\ same_fields ls sp.
Proof.
  intros s e s' c id R S L. assert (V := reach_inv _ R). assert (V' := yinv_step _ _ _ V S).
  destruct e as [c0 async ls|i ok|i|i|k|k|c0 async ls|k|c0 async ls|k|c0 ls|nm|nm|gone fail| |i| | |force|c0 force]; cbn [ystep] in S.
  - destruct (add_lockspace_start (y_sp s) ls) as (rv, st'). destruct rv; injection S as <-; cbn in L;
      try (injection L; intros; discriminate). destruct async; cbn in L; [discriminate|exfalso; exact (log_same _ _ L)].
  - destruct (with_id _ _); [discriminate|]. destruct (t_res _); [discriminate|]. injection S as <-. exfalso; exact (log_same _ _ L).
  - destruct (t_res _) as [[|]|]; try discriminate. destruct (t_exit _); [discriminate|]. injection S as <-. exfalso; exact (log_same _ _ L).
  - destruct (t_res _) as [ok|]; [|discriminate]. destruct (_ && _); [|discriminate]. injection S as <-. exfalso; exact (log_same _ _ L).
  - destruct (take k (y_wait s)) as [((c1, w0), w)|] eqn:T; [|discriminate]. destruct w0 as [ls i async| | |]; try discriminate.
    destruct (t_res (y_thr s i)) as [[|]|] eqn:TR; [| |discriminate].
    + destruct (_ || _) in S; injection S as <-; cbn in L; [exfalso; exact (log_same _ _ L)|].
      unfold answer_if in L. destruct async; [exfalso; exact (log_same _ _ L)|]. injection L as <- <-.
      destruct (v_wait _ V _ _ (take_in _ _ _ _ T)) as (sp & A1 & A2 & A3 & A4).
      assert (IN : In sp (with_id i (s_add (y_sp s)) ++ s_spaces (y_sp s))).
      { apply in_or_app. left. apply in_with_id. auto. }
      split.
      * assert (X := v_on _ V' sp IN). rewrite A2 in X. exact X.
      * exists ls, false, sp. split; [exact (take_in _ _ _ _ T)|]. split; [exact IN|]. auto.
    + destruct (t_exit _); [|discriminate]. injection S as <-. cbn in L. unfold answer_if in L.
      destruct async; [exfalso; exact (log_same _ _ L)|discriminate].
  - destruct (take k (y_wait s)) as [((c1, w0), w)|] eqn:T; [|discriminate]. destruct w0 as [|i async| |]; try discriminate.
    destruct (t_exit _); [|discriminate]. injection S as <-. cbn in L. unfold answer_if in L.
    destruct async; [exfalso; exact (log_same _ _ L)|discriminate].
  - destruct (existsb _ _); injection S as <-; cbn in L; [discriminate|exfalso; exact (log_same _ _ L)].
  - destruct (take k (y_wait s)) as [((c1, w0), w)|] eqn:T; [|discriminate]. destruct w0 as [| |ls async|]; try discriminate.
    injection S as <-. unfold do_rem in L. destruct (rem_lockspace_start (y_sp s) ls) as (rv, st'). destruct rv; cbn in L; try discriminate.
    destruct async; [discriminate|exfalso; exact (log_same _ _ L)].
  - injection S as <-. unfold do_rem in L. destruct (rem_lockspace_start (y_sp s) ls) as (rv, st'). destruct rv; cbn in L; try discriminate.
    destruct async; [discriminate|exfalso; exact (log_same _ _ L)].
  - destruct (take k (y_wait s)) as [((c1, w0), w)|] eqn:T; [|discriminate]. destruct w0 as [| | |ls i async]; try discriminate.
    destruct (ident _ _) as [sp|]; [destruct (sp_id sp =? i); [discriminate|]|]; injection S as <-; cbn in L; unfold answer_if in L;
      (destruct async; [exfalso; exact (log_same _ _ L)|discriminate]).
  - injection S as <-. discriminate.
  - destruct (search_space _ _ _ _) as [sp|]; [|discriminate]. destruct (sp_dead sp); [discriminate|]. injection S as <-. exfalso; exact (log_same _ _ L).
  - injection S as <-. exfalso; exact (log_same _ _ L).
  - destruct (y_phase s); try discriminate. injection S as <-. exfalso; exact (log_same _ _ L).
  - destruct (y_phase s); try discriminate. destruct (_ && _); injection S as <-; exfalso; exact (log_same _ _ L).
  - destruct (y_phase s); try discriminate. destruct (with_id _ _); [discriminate|]. destruct (t_exit _); [|discriminate].
    injection S as <-. exfalso; exact (log_same _ _ L).
  - destruct (y_phase s); try discriminate. destruct (forallb _ _); [|discriminate]. injection S as <-. cbn in L.
    destruct (y_reply s); [discriminate|exfalso; exact (log_same _ _ L)].
  - injection S as <-. exfalso; exact (log_same _ _ L).
  - destruct (y_phase s); try discriminate. injection S as <-. exfalso; exact (log_same _ _ L).
  - destruct (_ || _); injection S as <-; cbn in L; [exfalso; exact (log_same _ _ L)|discriminate].
Qed.
Print Assumptions C85_added.

Ltac split_step S :=
  unfold do_rem, answer_if in S;
  repeat match type of S with
    | context [add_lockspace_start ?a ?b] => let E := fresh "E" in destruct (add_lockspace_start a b) as ([] & ?) eqn:E; try apply add_start_ok in E
    | context [rem_lockspace_start ?a ?b] => let E := fresh "E" in destruct (rem_lockspace_start a b) as ([] & ?) eqn:E
    | context [match ?x with _ => _ end] => destruct x eqn:?; try discriminate S
    end; try discriminate S; injection S as <-; subst.

Lemma run_ind (P : sys -> Prop) : (forall s e s', P s -> ystep s e = Some s' -> P s') ->
  forall es s s', P s -> yrun s es = Some s' -> P s'.
Proof.
  intros H. induction es as [|e r IH]; intros s s' A R; cbn in R; [congruence|].
  destruct (ystep s e) as [s1|] eqn:E; [|discriminate]. eapply IH; [|exact R]. eapply H; eauto.
Qed.

(* ids start at 1 *)
Definition ids_ok (s : sys) : Prop :=
  1 <= s_next_id (y_sp s) /\ (forall sp, In sp (all_spaces (y_sp s)) -> 1 <= sp_id sp) /\
  (forall c ls id a, In (c, WRem ls id a) (y_wait s) -> 1 <= id).

Lemma ids_step s e s' : ids_ok s -> ystep s e = Some s' -> ids_ok s'.
Proof.
  intros (P & A & W) S.
  assert (U : forall j l sp, (forall x, In x l -> 1 <= sp_id x) -> In sp (upd_id j upd_ext l) -> 1 <= sp_id sp).
  { intros j l sp H I. apply in_upd_id in I. destruct I as (sp0 & I & ->). destruct (sp_id sp0 =? j); cbn; apply H; exact I. }
  assert (AS : forall x, In x (s_spaces (y_sp s)) -> 1 <= sp_id x) by (intros; apply A; rewrite in_all; tauto).
  assert (AA : forall x, In x (s_add (y_sp s)) -> 1 <= sp_id x) by (intros; apply A; rewrite in_all; tauto).
  assert (AR : forall x, In x (s_rem (y_sp s)) -> 1 <= sp_id x) by (intros; apply A; rewrite in_all; tauto).
  destruct e as [c0 async ls|i ok|i|i|k|k|c0 async ls|k|c0 async ls|k|c0 ls|nm|nm|gone fail| |i| | |force|c0 force]; cbn [ystep] in S.
  all: split_step S; unfold ids_ok; cbn [y_sp y_wait s_next_id add_wait_fail free_lockspace pass].
  all: try match goal with H : rem_lockspace_start _ _ = (LsOk, _) |- _ =>
         destruct (rem_start_ok _ _ _ H) as (x & _ & RI & [(XI & ->)|(XI & ->)]); cbn [y_sp y_wait s_next_id]; rewrite <- ?RI end.
  all: split; [lia|]; split;
    [ intros sp I; rewrite in_all in I; cbn [s_spaces s_add s_rem add_wait_fail free_lockspace pass] in I
    | intros c ls0 id0 a0 I; try (destruct I as [I|I]; [injection I as <- <- <- <-; auto|]);
      first [eapply W; exact I | eapply W; eapply take_rest; eassumption
            | discriminate I
            | destruct I as [I|I]; [discriminate I|first [eapply W; exact I | eapply W; eapply take_rest; eassumption]] | idtac] ].
  all: rewrite ?in_remove_id, ?in_app_iff, ?in_with_id in I.
  all: try (destruct I as [I|[I|I]]; [eauto|eauto|eauto]; fail).
  all: try (first [apply AS | apply AA | apply AR]; tauto).
  all: try (destruct I as [I|[[I|I]|I]]; auto; subst sp; cbn; exact P).
  all: try (destruct I as [[I|I]|[I|I]]; auto; apply AA; apply I).
  all: try (destruct I as [I|[I|I]]; auto; eapply U; eassumption).
  all: try (destruct I as [I|[I|I]]; auto; [apply AA|apply AR]; apply I).
  all: try (destruct I as [I|[I|I]]; auto; [apply AA]; apply I).
  all: try (destruct I as [I|[I|I]]; auto; [apply AR]; apply I).
  all: try (destruct I as [I|[I|[]]]; auto; fail).
  all: cbn in I; rewrite <- in_rev in I; destruct I as [I|[I|[I|I]]]; auto.
  all: try (unfold moved in I; apply filter_In in I; apply AS; apply I).
  all: apply in_map_iff in I; destruct I as (sp0 & <- & I); apply filter_In in I;
       destruct (checked_flags (y_shut s) fail sp0) as (F & _); rewrite F; apply AS; apply I.
Qed.
Lemma reach_ids s : yreach s -> ids_ok s.
Proof.
  intros (es & R). eapply (run_ind ids_ok ids_step es sys0); [|exact R]. split; [cbn; lia|]. split; [intros sp []|intros c ls id a []].
Qed.

Lemma wadd_id s c ls id a : yreach s -> In (c, WAdd ls id a) (y_wait s) -> exists sp, In sp (s_add (y_sp s)) /\ sp_id sp = id.
Proof. intros R I. destruct (v_wait _ (reach_inv _ R) _ _ I) as (sp & A & B & _). eauto. Qed.

(* add answered an error after it had begun: nothing is left of it *)
Theorem C85_add_failed : forall s e s' c id,
  yreach s -> ystep s e = Some s' -> y_log s' = (c, AAddFail id) :: y_log s -> left s' id.
Proof.
  intros s e s' c id R S L. assert (V := reach_inv _ R).
  assert (DEL : forall i, (exists sp, In sp (s_add (y_sp s)) /\ sp_id sp = i) -> t_exit (y_thr s i) = true ->
            forall sh ph w rp lg us, left (mkSys (add_wait_fail (y_sp s) i) sh (y_thr s) ph w rp lg us) i).
  { intros i (sp & A & B) TE sh ph w rp lg us. split; [|exact TE]. unfold listed. cbn [y_sp]. intros I.
    apply in_map_iff in I. destruct I as (sp1 & E & I). rewrite in_all in I. cbn in I. rewrite in_remove_id in I.
    destruct I as [I|[I|I]].
    - apply (disj_sa (y_sp s) sp1 sp); auto; [apply V|congruence].
    - tauto.
    - apply (disj_ar (y_sp s) sp sp1); auto; [apply V|congruence]. }
  destruct e as [c0 async ls|i ok|i|i|k|k|c0 async ls|k|c0 async ls|k|c0 ls|nm|nm|gone fail| |i| | |force|c0 force]; cbn [ystep] in S.
  5:{ destruct (take k (y_wait s)) as [((c1, w0), w)|] eqn:T; [|discriminate]. destruct w0 as [ls i async| | |]; try discriminate.
    destruct (t_res (y_thr s i)) as [[|]|] eqn:TR; [| |discriminate].
    + destruct (_ || _) in S; injection S as <-; cbn in L; [exfalso; exact (log_same _ _ L)|].
      unfold answer_if in L. destruct async; [exfalso; exact (log_same _ _ L)|discriminate].
    + destruct (t_exit _) eqn:TE; [|discriminate]. injection S as <-. cbn in L. unfold answer_if in L.
      destruct async; [exfalso; exact (log_same _ _ L)|]. injection L as <- <-. apply DEL; [|exact TE].
      eapply wadd_id; eauto. eapply take_in; eauto. }
  5:{ destruct (take k (y_wait s)) as [((c1, w0), w)|] eqn:T; [|discriminate]. destruct w0 as [|i async| |]; try discriminate.
    destruct (t_exit _) eqn:TE; [|discriminate]. injection S as <-. cbn in L. unfold answer_if in L.
    destruct async; [exfalso; exact (log_same _ _ L)|]. injection L as <- <-. apply DEL; [|exact TE].
    destruct (v_wait _ V _ _ (take_in _ _ _ _ T)) as (sp & A & B & _). eauto. }
  all: exfalso; unfold do_rem, answer_if in S.
  all: repeat match type of S with
       | context [match ?x with _ => _ end] => destruct x eqn:?; try discriminate S
       end; try discriminate S; injection S as <-; cbn in L;
       try exact (log_same _ _ L); try discriminate L;
       repeat match type of L with context [match ?x with _ => _ end] => destruct x eqn:?; cbn in L end;
       try exact (log_same _ _ L); try discriminate L.
Qed.
Print Assumptions C85_add_failed.

(* remove answered 0: the lockspace that was there when the command came is gone, its
   host id given back *)
Theorem C85_removed : forall s e s' c id,
  yreach s -> ystep s e = Some s' -> y_log s' = (c, ARemoved id) :: y_log s -> left s' id.
Proof.
  intros s e s' c id R S L. assert (V := reach_inv _ R). destruct (reach_ids _ R) as (_ & _ & POS).
  destruct e as [c0 async ls|i ok|i|i|k|k|c0 async ls|k|c0 async ls|k|c0 ls|nm|nm|gone fail| |i| | |force|c0 force]; cbn [ystep] in S.
  10:{ destruct (take k (y_wait s)) as [((c1, w0), w)|] eqn:T; [|discriminate]. destruct w0 as [| | |ls i async]; try discriminate.
    destruct (v_wait _ V _ _ (take_in _ _ _ _ T)) as (LT & HITS).
    assert (NL : id = i -> ~ In i (map sp_id (all_spaces (y_sp s))) -> forall w0 lg, left (mkSys (y_sp s) (y_shut s) (y_thr s) (y_phase s) w0 (y_reply s) lg (y_used s)) i).
    { intros -> N w0 lg. split; [exact N|]. apply (v_gone _ V); auto. eapply POS. eapply take_in. exact T. }
    destruct (ident ls [s_spaces (y_sp s); s_rem (y_sp s); s_add (y_sp s)]) as [sp|] eqn:ID.
    - destruct (sp_id sp =? i) eqn:NE; [discriminate|]. apply N.eqb_neq in NE. injection S as <-. cbn in L. unfold answer_if in L.
      destruct async; [exfalso; exact (log_same _ _ L)|]. injection L as <- <-. apply NL; [reflexivity|].
      intros I. apply in_map_iff in I. destruct I as (sp1 & E & I). specialize (HITS sp1 I E).
      unfold ident, search_space in ID. apply find_some in ID. destruct ID as (J & F). cbn [concat] in J. rewrite app_nil_r in J.
      assert (J' : In sp (all_spaces (y_sp s))) by (rewrite in_all; rewrite !in_app_iff in J; tauto).
      apply NE. rewrite <- E. f_equal. destruct (v_inv _ V) as (NN & _).
      apply (nodup_inj name_of _ _ _ NN J' I). unfold hits in HITS.
      rewrite !andb_true_iff in F, HITS. destruct F as ((F & _) & _), HITS as ((G & _) & _).
      unfold match_name in F, G. rewrite strncmp_eq_spec in F, G. unfold name_of. congruence.
    - injection S as <-. cbn in L. unfold answer_if in L.
      destruct async; [exfalso; exact (log_same _ _ L)|]. injection L as <- <-. apply NL; [reflexivity|].
      intros I. apply in_map_iff in I. destruct I as (sp1 & E & I). specialize (HITS sp1 I E).
      unfold ident, search_space in ID. assert (X := find_none _ _ ID sp1). cbn [concat] in X.
      rewrite in_all in I. rewrite app_nil_r, !in_app_iff in X. unfold hits in HITS. rewrite HITS in X.
      assert (true = false) by (apply X; tauto). discriminate. }
  all: exfalso; unfold do_rem, answer_if in S.
  all: repeat match type of S with
       | context [match ?x with _ => _ end] => destruct x eqn:?; try discriminate S
       end; try discriminate S; injection S as <-; cbn in L;
       try exact (log_same _ _ L); try discriminate L;
       repeat match type of L with context [match ?x with _ => _ end] => destruct x eqn:?; cbn in L end;
       try exact (log_same _ _ L); try discriminate L.
Qed.
Print Assumptions C85_removed.

(* inquire: 0 for a member, in progress while it is added or removed, else no entry *)
Theorem C85_inquire : forall s ls, yreach s -> sp_host_id ls <> 0 ->
  (inq_lockspace (y_sp s) ls = LsOk <->
     exists sp, In sp (s_spaces (y_sp s)) /\ same_lockspace ls sp /\ member s (sp_id sp)) /\
  (inq_lockspace (y_sp s) ls = LsENOENT <-> forall sp, In sp (all_spaces (y_sp s)) -> ~ same_lockspace ls sp) /\
  (inq_lockspace (y_sp s) ls = LsOk \/ inq_lockspace (y_sp s) ls = LsEINPROGRESS \/ inq_lockspace (y_sp s) ls = LsENOENT).
Proof.
  intros s ls R HZ. assert (V := reach_inv _ R). unfold inq_lockspace, ident.
  assert (A := id_search ls (s_spaces (y_sp s)) HZ).
  assert (B := id_search ls (s_add (y_sp s) ++ s_rem (y_sp s)) HZ).
  assert (B' : search_space (Some (sp_name ls)) (Some (sp_path ls, sp_offset ls)) (sp_host_id ls) [s_add (y_sp s) ++ s_rem (y_sp s)] =
          search_space (Some (sp_name ls)) (Some (sp_path ls, sp_offset ls)) (sp_host_id ls) [s_add (y_sp s); s_rem (y_sp s)])
    by (unfold search_space; cbn [concat]; rewrite !app_nil_r; reflexivity).
  rewrite B' in B. clear B'.
  destruct (search_space _ _ _ [s_spaces (y_sp s)]) as [x|] eqn:F1.
  - assert (X : exists sp, In sp (s_spaces (y_sp s)) /\ same_lockspace ls sp) by (apply A; eauto).
    destruct X as (sp & I & S). split; [|split].
    + split; [|auto]. intros _. exists sp. split; [exact I|]. split; [exact S|]. apply (v_on _ V sp I).
    + split; [discriminate|]. intros N. exfalso. apply (N sp); [rewrite in_all; auto|exact S].
    + auto.
  - assert (NX : ~ exists sp, In sp (s_spaces (y_sp s)) /\ same_lockspace ls sp)
      by (intros X; apply A in X; destruct X; discriminate).
    split.
    + split; [destruct (search_space _ _ _ [s_add (y_sp s); s_rem (y_sp s)]); discriminate|].
      intros (sp & I & S & _). exfalso. apply NX. eauto.
    + destruct (search_space _ _ _ [s_add (y_sp s); s_rem (y_sp s)]) as [y|] eqn:F2.
      * split; [|auto]. split; [discriminate|]. intros N. exfalso.
        assert (X : exists sp, In sp (s_add (y_sp s) ++ s_rem (y_sp s)) /\ same_lockspace ls sp) by (apply B; eauto).
        destruct X as (sp & I & S). apply in_app_iff in I. apply (N sp); [rewrite in_all; tauto|exact S].
      * split; [|auto]. split; [|auto]. intros _ sp I S. rewrite in_all in I. destruct I as [I|I].
        -- apply NX. eauto.
        -- assert (X : exists sp, In sp (s_add (y_sp s) ++ s_rem (y_sp s)) /\ same_lockspace ls sp)
             by (exists sp; rewrite in_app_iff; auto).
           apply B in X. destruct X. discriminate.
Qed.
Print Assumptions C85_inquire.

(* ---- a removal is never lost ---- *)
(* marked for removal while it was being added: never gets into use *)
Definition marked_add (s : sys) (id : N) : Prop :=
  id < s_next_id (y_sp s) /\ (forall sp, In sp (s_spaces (y_sp s)) -> sp_id sp <> id) /\
  (forall sp, In sp (s_add (y_sp s)) -> sp_id sp = id -> sp_external_remove sp = true).

Lemma marked_step s e s' id : marked_add s id -> ystep s e = Some s' -> marked_add s' id.
Proof.
  intros (LT & NS & EX) S.
  assert (UPD : forall j l sp, In sp (upd_id j upd_ext l) -> exists sp0, In sp0 l /\ sp_id sp0 = sp_id sp /\
            (sp_external_remove sp0 = true -> sp_external_remove sp = true)).
  { intros j l sp I. apply in_upd_id in I. destruct I as (sp0 & I & ->). exists sp0. split; [exact I|].
    destruct (sp_id sp0 =? j); cbn; auto. }
  destruct e as [c0 async ls|i ok|i|i|k|k|c0 async ls|k|c0 async ls|k|c0 ls|nm|nm|gone fail| |i| | |force|c0 force]; cbn [ystep] in S.
  all: split_step S; unfold marked_add; cbn.
  all: try (split; [lia|]; split; assumption).
  all: try (split; [assumption|]; split; [assumption|]; intros sp I; apply in_remove_id in I; apply EX; apply I).
  all: try match goal with H : rem_lockspace_start _ _ = (LsOk, _) |- _ =>
         destruct (rem_start_ok _ _ _ H) as (? & _ & _ & [(_ & ->)|(_ & ->)]); cbn;
         (split; [exact LT|]; split; [|]); intros sp I;
         first [exact (NS sp I) | exact (EX sp I)
               | apply UPD in I; destruct I as (sp0 & I & <- & F); first [exact (NS _ I) | intros E'; apply F; exact (EX _ I E')]] end.
  all: try (split; [lia|]; split; [exact NS|]; intros sp [<-|I] E'; [cbn in E'; lia|exact (EX sp I E')]).
  all: try (split; [exact LT|]; split; [|exact EX]; intros sp I; apply in_map_iff in I; destruct I as (sp0 & <- & I);
    apply filter_In in I; destruct (checked_flags (y_shut s) fail sp0) as (F & _); rewrite F; apply NS; apply I).
  all: split; [exact LT|]; split.
  all: intros sp I; try (apply in_remove_id in I; apply EX; apply I).
  all: apply in_app_iff in I; destruct I as [I|I]; [|exact (NS sp I)].
  all: intros E'; apply orb_false_iff in Heqb1; destruct Heqb1 as (B & _); apply not_true_iff_false in B; apply B;
    apply existsb_exists; exists sp; split; [exact I|]; apply in_with_id in I; apply EX; [apply I|exact E'].
Qed.

Theorem C85_remove_while_adding : forall s c a ls s1 es s2,
  yreach s -> ystep s (ERem c a ls) = Some s1 ->
  forall sp, In sp (s_add (y_sp s)) -> same_lockspace ls sp -> sp_host_id ls <> 0 ->
  (forall x, In x (s_rem (y_sp s)) -> ~ same_lockspace ls x) ->
  yrun s1 es = Some s2 -> forall x, In x (s_spaces (y_sp s2)) -> sp_id x <> sp_id sp.
Proof.
  intros s c a ls s1 es s2 R S sp IA SL HZ NR RUN.
  assert (V := reach_inv _ R).
  assert (M : marked_add s1 (sp_id sp)).
  { cbn [ystep] in S. unfold do_rem, rem_lockspace_start in S.
    destruct (search_space _ _ _ [s_rem (y_sp s)]) as [y|] eqn:F0.
    { exfalso. destruct (proj1 (id_search ls (s_rem (y_sp s)) HZ) (ex_intro _ y F0)) as (x & I & X). exact (NR x I X). }
    destruct (search_space _ _ _ [s_add (y_sp s)]) as [y|] eqn:F1.
    2:{ exfalso. destruct (proj2 (id_search ls (s_add (y_sp s)) HZ) (ex_intro _ sp (conj IA SL))) as (x & X). congruence. }
    assert (y = sp) as ->.
    { unfold search_space in F1. cbn [concat] in F1. rewrite app_nil_r in F1. apply find_some in F1. destruct F1 as (I & F).
      destruct (v_inv _ V) as (NN & _). apply (nodup_inj name_of _ _ _ NN); [rewrite in_all; auto|rewrite in_all; auto|].
      rewrite !andb_true_iff in F. destruct F as ((F & _) & _). unfold match_name in F. rewrite strncmp_eq_spec in F.
      destruct SL as (E & _). unfold name_of in *. congruence. }
    injection S as <-. split; [|split]; cbn.
    - apply (v_inv _ V). rewrite in_all. auto.
    - intros x I. apply (disj_sa (y_sp s)); auto. apply V.
    - intros x I E. apply in_upd_id in I. destruct I as (x0 & I & ->).
      destruct (sp_id x0 =? sp_id sp) eqn:Q; [reflexivity|]. apply N.eqb_neq in Q. congruence. }
  assert (M2 : marked_add s2 (sp_id sp)).
  { clear -M RUN. revert s1 M RUN. induction es as [|e r IH]; intros s1 M RUN; cbn in RUN; [congruence|].
    destruct (ystep s1 e) as [s3|] eqn:E; [|discriminate]. eapply IH; [|exact RUN]. eapply marked_step; eauto. }
  apply M2.
Qed.
Print Assumptions C85_remove_while_adding.

(* marked while in use: the next check begins to kill its users *)
Theorem C85_remove_in_use : forall s gone fail s',
  ystep s (EPass gone fail) = Some s' ->
  forall sp, In sp (s_spaces (y_sp s)) -> sp_external_remove sp = true ->
  exists x, In x (s_spaces (y_sp s') ++ s_rem (y_sp s')) /\ sp_id x = sp_id sp /\ sp_dead x = true.
Proof.
  intros s gone fail s' S sp I E. cbn [ystep] in S. destruct (y_phase s); try discriminate. injection S as <-. cbn.
  destruct (sp_dead sp && gone (sp_id sp)) eqn:B.
  - exists sp. rewrite !in_app_iff, <- in_rev. split; [right; left; unfold moved; apply filter_In; auto|].
    split; [reflexivity|]. apply andb_true_iff in B. apply B.
  - exists (checked (y_shut s) fail sp). split.
    + apply in_or_app. left. apply in_map. apply filter_In. rewrite B. auto.
    + destruct (checked_flags (y_shut s) fail sp) as (F & _). split; [exact F|]. unfold checked.
      destruct (sp_dead sp) eqn:D; [exact D|]. rewrite E, orb_true_r. reflexivity.
Qed.
Print Assumptions C85_remove_in_use.

(* ---- the end of the daemon ---- *)
(* every lockspace being added has a worker *)
Definition add_workers (s : sys) : Prop := forall sp, In sp (s_add (y_sp s)) -> In (sp_id sp) (add_ids (y_wait s)).
Definition rem_done (s : sys) : Prop := y_phase s = PDone -> s_rem (y_sp s) = [].
(* what the main loop knows: a check that found lockspaces still does *)
Definition test_ok (s : sys) : Prop := y_phase s = PTest false -> s_spaces (y_sp s) <> [].

Lemma take_ids k w x r j : take k w = Some (x, r) -> In j (add_ids w) -> In j (add_ids (x :: r)).
Proof. intros T I. apply take_perm in T. eapply Permutation.Permutation_in; [apply add_ids_perm; exact T|exact I]. Qed.

Lemma workers_step s e s' : yinv s -> add_workers s -> ystep s e = Some s' -> add_workers s'.
Proof.
  intros V A S.
  destruct e as [c0 async ls|i ok|i|i|k|k|c0 async ls|k|c0 async ls|k|c0 ls|nm|nm|gone fail| |i| | |force|c0 force]; cbn [ystep] in S.
  all: split_step S; unfold add_workers; cbn; try exact A.
  all: try match goal with H : rem_lockspace_start _ _ = (LsOk, _) |- _ =>
         destruct (rem_start_ok _ _ _ H) as (? & _ & _ & [(_ & ->)|(_ & ->)]); cbn end.
  all: try (intros sp I; apply in_upd_id in I; destruct I as (sp0 & I & ->);
            destruct (sp_id sp0 =? rem_id (y_sp s) ls); cbn).
  all: try (intros sp I).
  all: try (destruct I as [<-|I]; [left; reflexivity|right; apply A; exact I]).
  all: try match goal with T : take ?k (y_wait _) = Some (?p, ?l), I : In ?x (s_add (y_sp _)) |- _ =>
         assert (TI := take_ids _ _ _ _ _ T (A _ I)); cbn in TI; exact TI end.
  all: try (apply in_remove_id in I; destruct I as (I & NE);
       match goal with T : take ?k (y_wait _) = Some (?p, ?l) |- _ =>
         assert (TI := take_ids _ _ _ _ _ T (A _ I)); cbn in TI; destruct TI as [TI|TI]; [congruence|exact TI] end).
  all: try (apply A; exact I).
Qed.

Lemma rem_step s e s' : rem_done s -> ystep s e = Some s' -> rem_done s'.
Proof.
  intros A S. unfold rem_done in *.
  destruct e as [c0 async ls|i ok|i|i|k|k|c0 async ls|k|c0 async ls|k|c0 ls|nm|nm|gone fail| |i| | |force|c0 force]; cbn [ystep] in S.
  all: split_step S; cbn; try exact A; try discriminate; try reflexivity; try congruence.
  all: try match goal with H : rem_lockspace_start _ _ = (LsOk, _) |- _ =>
         destruct (rem_start_ok _ _ _ H) as (? & _ & _ & [(_ & ->)|(_ & ->)]); cbn; exact A end.
Qed.

Lemma upd_id_nil id g l : upd_id id g l = [] <-> l = [].
Proof. unfold upd_id. destruct l; cbn; split; congruence. Qed.

Lemma test_step s e s' : test_ok s -> ystep s e = Some s' -> test_ok s'.
Proof.
  intros A S. unfold test_ok in *.
  destruct e as [c0 async ls|i ok|i|i|k|k|c0 async ls|k|c0 async ls|k|c0 ls|nm|nm|gone fail| |i| | |force|c0 force]; cbn [ystep] in S.
  all: split_step S; cbn in *; try exact A; try discriminate; try congruence.
  all: try match goal with H : rem_lockspace_start _ _ = (LsOk, _) |- _ =>
         destruct (rem_start_ok _ _ _ H) as (? & _ & _ & [(_ & ->)|(_ & ->)]); cbn; rewrite ?upd_id_nil; exact A end.
  all: intros H; specialize (A H); destruct (with_id id (s_add (y_sp s))); cbn; [exact A|discriminate].
Qed.

(* shutdown has been asked for and no lockspace is in use: stays so until the loop ends *)
Definition closing (s : sys) : Prop :=
  y_shut s <> 0 /\ s_spaces (y_sp s) = [] /\ y_phase s <> PTest false.
Lemma closing_step s e s' : closing s -> ystep s e = Some s' -> closing s'.
Proof.
  intros (A & B & C) S. unfold closing in *.
  destruct e as [c0 async ls|i ok|i|i|k|k|c0 async ls|k|c0 async ls|k|c0 ls|nm|nm|gone fail| |i| | |force|c0 force]; cbn [ystep] in S.
  all: split_step S; cbn in *; rewrite ?B in *; cbn in *; try discriminate.
  all: try match goal with H : rem_lockspace_start _ _ = (LsOk, _) |- _ =>
         destruct (rem_start_ok _ _ _ H) as (? & _ & _ & [(_ & ->)|(_ & ->)]); cbn; rewrite ?B; cbn end.
  all: try (split; [first [assumption|lia]|split; [first [assumption|reflexivity]|first [assumption|congruence|discriminate]]]; fail).
  all: try (exfalso; match goal with H : _ || _ = false |- _ => apply orb_false_iff in H; destruct H as (_ & H);
              apply negb_false_iff, N.eqb_eq in H; congruence end).
  all: exfalso; repeat match goal with H : (_ =? 1) = true |- _ => apply N.eqb_eq in H end;
       match goal with H : _ && ?b = false |- _ => destruct b; [|congruence];
         rewrite andb_true_r, negb_false_iff, N.eqb_eq in H; congruence end.
Qed.

(* a shutdown that was accepted because there is no lockspace ends the loop at the next test *)
Theorem C85_shutdown_ends : forall s c s1 es s2,
  yreach s -> ystep s (EShutWait c false) = Some s1 -> y_log s1 = y_log s ->
  yrun s1 es = Some s2 -> s_spaces (y_sp s2) = [] /\
  forall s3, ystep s2 ETest = Some s3 -> y_phase s3 = PEnd.
Proof.
  intros s c s1 es s2 (es0 & R0) S L R.
  assert (TO : test_ok s) by (eapply (run_ind test_ok test_step es0 sys0); [discriminate|exact R0]).
  assert (CL : closing s1).
  { cbn [ystep orb] in S. destruct (lists_empty (y_sp s)) eqn:LE; injection S as <-; [|cbn in L; symmetry in L; exfalso; exact (log_same _ _ L)].
    unfold lists_empty in LE. destruct (s_spaces (y_sp s)) eqn:E; [|discriminate]. repeat split; cbn; auto; [lia|].
    intros X. exact (TO X E). }
  assert (CL2 := run_ind closing closing_step es s1 s2 CL R). destruct CL2 as (A & B & C).
  split; [exact B|]. intros s3 S3. cbn [ystep] in S3. destruct (y_phase s2) as [|[|]| |]; try discriminate; [|congruence].
  apply N.eqb_neq in A. rewrite A in S3. cbn in S3. injection S3 as <-. reflexivity.
Qed.
Print Assumptions C85_shutdown_ends.

(* forced: the request stays until the daemon ends, unless SIGTERM comes *)
Definition no_term (es : list ev) : Prop := ~ In ESigterm es.
Definition forced (s : sys) : Prop := y_shut s = 2 \/ closing s.
Lemma forced_step s e s' : e <> ESigterm -> test_ok s -> forced s -> ystep s e = Some s' -> forced s'.
Proof.
  intros NT TO [A|A] S; [|right; eapply closing_step; eauto].
  destruct e as [c0 async ls|i ok|i|i|k|k|c0 async ls|k|c0 async ls|k|c0 ls|nm|nm|gone fail| |i| | |force|c0 force]; try congruence; cbn [ystep] in S.
  19:{ unfold lists_empty in S. destruct force; cbn in S; [injection S as <-; left; reflexivity|].
    destruct (s_spaces (y_sp s)) eqn:E1; [destruct (s_rem (y_sp s)) eqn:E2; [destruct (s_add (y_sp s)) eqn:E3|]|];
      injection S as <-; try (left; exact A).
    right. split; [cbn; lia|]. split; [exact E1|]. cbn. intros X. exact (TO X E1). }
  18:{ unfold lists_empty in S. destruct (y_phase s) eqn:PH; try discriminate. injection S as <-. destruct force; [left; reflexivity|].
    destruct (s_spaces (y_sp s)) eqn:E1; [destruct (s_rem (y_sp s)) eqn:E2; [destruct (s_add (y_sp s)) eqn:E3|]|]; try (left; exact A).
    right. split; [cbn; lia|]. split; [exact E1|]. cbn. discriminate. }
  all: split_step S; left; cbn; rewrite ?A; try reflexivity; try exact A.
  all: exfalso; match goal with H : (_ =? 1) = true |- _ => rewrite A in H; discriminate H end.
Qed.

Theorem C85_forced_partial : forall s c es s1 s2 s3,
  yreach s -> ystep s (EShutWait c true) = Some s1 -> yrun s1 es = Some s2 -> no_term es ->
  y_phase s2 = PTest true -> ystep s2 ETest = Some s3 -> y_phase s3 = PEnd.
Proof.
  intros s c es s1 s2 s3 R S RUN NT PH S3. destruct R as (es0 & R0).
  assert (TO : test_ok s) by (eapply (run_ind test_ok test_step es0 sys0); [discriminate|exact R0]).
  assert (TO1 := test_step _ _ _ TO S).
  assert (F1 : forced s1) by (cbn [ystep orb] in S; injection S as <-; left; reflexivity).
  assert (F2 : forced s2).
  { clear -F1 TO1 RUN NT. revert s1 F1 TO1 RUN. induction es as [|e r IH]; intros s1 F1 TO1 RUN; cbn in RUN; [congruence|].
    destruct (ystep s1 e) as [s3|] eqn:E; [|discriminate].
    apply (IH (fun X => NT (or_intror X)) s3); [|eapply test_step; eauto|exact RUN].
    eapply forced_step; eauto. intros ->. apply NT. left. reflexivity. }
  assert (NZ : (y_shut s2 =? 0) = false) by (apply N.eqb_neq; destruct F2 as [F2|(F2 & _)]; lia).
  cbn [ystep] in S3. rewrite PH, NZ in S3. cbn in S3. injection S3 as <-. reflexivity.
Qed.
Print Assumptions C85_forced_partial.

(* the end: SIGTERM or a forced shutdown between the check and the test (main.c:908-910) *)
Fixpoint calm (s : sys) (es : list ev) : Prop :=
  match es with
  | [] => True
  | e :: r =>
      (match e, y_phase s with
       | ESigterm, PTest _ | EShutWait _ true, PTest _ => y_shut s <> 0
       | _, _ => True
       end) /\ match ystep s e with Some s' => calm s' r | None => True end
  end.
Definition calm_ok (s : sys) : Prop :=
  match y_phase s with
  | PIdle => True
  | PTest empty => y_shut s <> 0 -> empty = true -> s_spaces (y_sp s) = []
  | PEnd | PDone => y_shut s <> 0 /\ s_spaces (y_sp s) = []
  end.

Lemma calm_step s e s' : calm s [e] -> calm_ok s -> ystep s e = Some s' -> calm_ok s'.
Proof.
  intros (CA & _) A S. unfold calm_ok in *.
  destruct e as [c0 async ls|i ok|i|i|k|k|c0 async ls|k|c0 async ls|k|c0 ls|nm|nm|gone fail| |i| | |force|c0 force]; cbn [ystep] in S.
  all: split_step S; cbn in *; try exact A; try discriminate; try exact Logic.I.
  all: repeat match goal with H : y_phase _ = _ |- _ => rewrite H in *; cbn in * end; try exact A; try exact Logic.I.
  all: try match goal with H : rem_lockspace_start _ _ = (LsOk, _) |- _ =>
         destruct (rem_start_ok _ _ _ H) as (? & _ & _ & [(_ & ->)|(_ & ->)]); cbn;
         destruct (y_phase s); rewrite ?upd_id_nil; exact A end.
  all: try (apply orb_false_iff in Heqb1; destruct Heqb1 as (_ & Z); apply negb_false_iff, N.eqb_eq in Z;
            destruct (y_phase s); auto; try (intros; congruence); destruct A; congruence).
  all: try (destruct (y_phase s) as [|em| |]; [exact Logic.I|intros _; apply A; exact CA|split; [lia|apply A]|split; [lia|apply A]]; fail).
  all: try (apply andb_true_iff in Heqb; destruct Heqb as (Z & ->); apply negb_true_iff, N.eqb_neq in Z; auto; fail).
  all: try (intros _ _; assumption).
  all: try (intros _ Q; discriminate Q).
  all: try (unfold lists_empty in Heqb; destruct (s_spaces (y_sp s)); [|discriminate];
            destruct (y_phase s); auto; split; try lia; reflexivity).
Qed.

Lemma calm_run es : forall s s', calm s es -> calm_ok s -> yrun s es = Some s' -> calm_ok s'.
Proof.
  induction es as [|e r IH]; intros s s' C A R; cbn in R; [congruence|].
  destruct (ystep s e) as [s1|] eqn:E; [|discriminate]. cbn in C. rewrite E in C. destruct C as (C1 & C2).
  eapply IH; [exact C2| |exact R]. eapply calm_step; [|exact A|exact E]. cbn. rewrite E. split; [exact C1|exact Logic.I].
Qed.

Theorem C85_end_partial : forall es s,
  yrun sys0 es = Some s -> calm sys0 es -> y_phase s = PDone -> idle s ->
  all_spaces (y_sp s) = [] /\ forall id, 1 <= id -> id < s_next_id (y_sp s) -> left s id.
Proof.
  intros es s R C PH ID. assert (V := yinv_run es _ _ yinv0 R).
  assert (AW : add_workers s).
  { assert (X : yinv s /\ add_workers s).
    { eapply (run_ind (fun x => yinv x /\ add_workers x)); [|split; [apply yinv0|intros sp []]|exact R].
      intros a e b (P & Q) S. split; [eapply yinv_step; eauto|eapply workers_step; eauto]. }
    apply X. }
  assert (RD : rem_done s) by (eapply (run_ind rem_done rem_step es sys0); [discriminate|exact R]).
  assert (CO : calm_ok s) by (eapply (calm_run es sys0); [exact C|exact Logic.I|exact R]).
  unfold calm_ok in CO. rewrite PH in CO. destruct CO as (_ & SP).
  assert (SA : s_add (y_sp s) = []).
  { destruct (s_add (y_sp s)) as [|sp l] eqn:E; [reflexivity|]. exfalso.
    assert (X : In (sp_id sp) (add_ids (y_wait s))) by (apply AW; rewrite E; left; reflexivity). rewrite ID in X. destruct X. }
  assert (AL : all_spaces (y_sp s) = []) by (unfold all_spaces; rewrite SP, SA, (RD PH); reflexivity).
  split; [exact AL|]. intros id P Q. assert (N : ~ listed s id) by (unfold listed; rewrite AL; intros []).
  split; [exact N|]. apply (v_gone _ V); assumption.
Qed.
Print Assumptions C85_end_partial.

(* and in any case the last client that asked is answered when the loop is over *)
Theorem C85_reply_partial : forall s c s',
  y_reply s = Some c -> ystep s EEnd = Some s' -> y_log s' = (c, AShut) :: y_log s.
Proof.
  intros s c s' E S. cbn [ystep] in S. destruct (y_phase s); try discriminate. destruct (forallb _ _); [|discriminate].
  injection S as <-. cbn. rewrite E. reflexivity.
Qed.
Print Assumptions C85_reply_partial.

(* ---- witnesses ---- *)
Definition L1 : space := mkSpace [108; 115] [47; 97] 0 1 0 false false false.   (* ls:1:/a:0 *)
Definition none : N -> bool := fun _ => false.
Definition all : N -> bool := fun _ => true.
Definition joined : list ev := [EAdd 7 false L1; EJoin 1 true; EGen 1; EWaitAdd 0].

(* the add completes after the check found nothing, SIGTERM comes, the daemon ends *)
Theorem C85_end_refuted : ~ C85_end_statement.
Proof.
  intros H.
  destruct (yrun sys0 [EAdd 7 false L1; EJoin 1 true; EGen 1; EPass none none; EWaitAdd 0; ESigterm; ETest; EEnd]) as [s|] eqn:R;
    [|vm_compute in R; discriminate].
  assert (X := H s (ex_intro _ _ R)). vm_compute in R. injection R as <-.
  specialize (X eq_refl eq_refl 1). destruct X as (X & _); cbn; try lia. apply X. left. reflexivity.
Qed.
Print Assumptions C85_end_refuted.

(* SIGTERM during a forced shutdown: 2 becomes 1, which is dropped because a lockspace
   exists; then all are gone and the daemon goes on *)
Theorem C85_forced_refuted : ~ C85_forced_statement.
Proof.
  intros H.
  destruct (yrun sys0 joined) as [s|] eqn:R; [|vm_compute in R; discriminate].
  destruct (ystep s (EShutWait 9 true)) as [s1|] eqn:S1; [|vm_compute in R; injection R as <-; vm_compute in S1; discriminate].
  destruct (yrun s1 [EPass none none; ESigterm; ETest; EPass all none]) as [s2|] eqn:R2;
    [|vm_compute in R; injection R as <-; vm_compute in S1; injection S1 as <-; vm_compute in R2; discriminate].
  destruct (ystep s2 ETest) as [s3|] eqn:S3;
    [|vm_compute in R; injection R as <-; vm_compute in S1; injection S1 as <-; vm_compute in R2; injection R2 as <-; vm_compute in S3; discriminate].
  assert (X := H s 9 _ s1 s2 s3 (ex_intro _ _ R) S1 R2).
  vm_compute in R. injection R as <-. vm_compute in S1. injection S1 as <-. vm_compute in R2. injection R2 as <-.
  vm_compute in S3. injection S3 as <-. specialize (X eq_refl eq_refl). discriminate X.
Qed.
Print Assumptions C85_forced_refuted.

(* two clients wait for the shutdown *)
Theorem C85_reply_refuted : ~ C85_reply_statement.
Proof.
  intros H. destruct (ystep sys0 (EShutWait 1 false)) as [s1|] eqn:S1; [|discriminate S1].
  destruct (yrun s1 [EShutWait 2 false; EPass none none; ETest; EEnd]) as [s2|] eqn:R2;
    [|vm_compute in S1; injection S1 as <-; vm_compute in R2; discriminate].
  assert (X := fun es => H sys0 1 es s1 s2 (ex_intro _ [] eq_refl) S1).
  vm_compute in S1. injection S1 as <-. specialize (X _ eq_refl R2). vm_compute in R2. injection R2 as <-.
  specialize (X eq_refl). cbn in X. destruct X as [X|X]; [discriminate|exact X].
Qed.
Print Assumptions C85_reply_refuted.

(* a lease is acquired between the two steps of the command *)
Theorem C85_unused_refuted : ~ C85_unused_statement.
Proof.
  intros H.
  destruct (yrun sys0 (joined ++ [EUnused 3 false L1; EAcq [108; 115]])) as [s|] eqn:R; [|vm_compute in R; discriminate].
  destruct (ystep s (EChkRem 0)) as [s1|] eqn:S1; [|vm_compute in R; injection R as <-; vm_compute in S1; discriminate].
  assert (X := H s 0%nat 3 L1 false [] s1 (ex_intro _ _ R)).
  vm_compute in R. injection R as <-. specialize (X eq_refl S1). vm_compute in S1. injection S1 as <-.
  specialize (X eq_refl). discriminate X.
Qed.
Print Assumptions C85_unused_refuted.

(* the thread publishes its result before it sets the generation *)
Theorem C85_generation_refuted : ~ C85_generation_statement.
Proof.
  intros H.
  destruct (yrun sys0 [EAdd 7 false L1; EJoin 1 true; EWaitAdd 0]) as [s|] eqn:R; [|vm_compute in R; discriminate].
  assert (X := H s (mkSpace [108; 115] [47; 97] 0 1 1 false false false) (ex_intro _ _ R)).
  vm_compute in R. injection R as <-. specialize (X (or_introl eq_refl)). discriminate X.
Qed.
Print Assumptions C85_generation_refuted.

(* join, inquire, a remove that waits, everything given back; then shutdown with wait *)
Definition ex_life : list ev :=
  joined ++ [EInq 4 L1; ERem 5 false L1; EPass none none; ETest; EPass all none; ETest; EInq 4 L1; EExit 1; EFree 1; EWaitRem 0;
             EInq 4 L1; EShutWait 6 false; EPass none none; ETest; EEnd].
Example C85_nonvacuous :
  (match yrun sys0 ex_life with
   | Some s => y_log s = [(6, AShut); (4, ASync LsENOENT); (5, ARemoved 1); (4, ASync LsEINPROGRESS); (4, ASync LsOk); (7, AAdded 1)] /\
               y_phase s = PDone /\ idle s /\ t_exit (y_thr s 1) = true
   | None => False
   end) /\
  calm sys0 ex_life /\
  (match yrun sys0 [EAdd 7 false L1; ERem 5 false L1; EJoin 1 true; EWaitAdd 1; EGen 1; EExit 1; EUndo 0; EWaitRem 0] with
   | Some s => y_log s = [(5, ARemoved 1); (7, AAddFail 1)]
   | None => False
   end).
Proof. vm_compute. repeat split; discriminate. Qed.
