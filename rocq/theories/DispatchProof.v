(* Lemmas on Dispatch.v: what every history in which no header is read from the connection of a
   process that is gone leaves. *)
From Coq Require Import List ZArith NArith Lia Bool.
From Verif Require Import Dispatch.
Import ListNotations.

Lemma upd_same : forall s i c, slots (upd s i c) i = c.
Proof. intros. cbn. rewrite Nat.eqb_refl. reflexivity. Qed.
Lemma upd_other : forall s i c k, k <> i -> slots (upd s i c) k = slots s k.
Proof. intros s i c k H. cbn. apply Nat.eqb_neq in H. rewrite H. reflexivity. Qed.
Lemma susp_field : forall {A} (f : slot -> A) s ci k, (forall c b, f (set_susp c b) = f c) ->
  f (slots (upd s ci (set_susp (slots s ci) true)) k) = f (slots s k).
Proof. intros A f s ci k H. cbn. destruct (Nat.eqb_spec k ci) as [-> | n]; auto. Qed.

(* ---- what holds after every history ---- *)
Definition targets (l : list job) : list nat := flat_map (fun j => match j_tgt j with Some t => [t] | None => [] end) l.
Definition slot_ok (c : slot) : Prop :=
  (used c = false -> c = empty_slot) /\ (active c <> 0%N -> pid c <> (-1)%Z \/ dead c = true) /\
  (pid c <> (-1)%Z \/ active c <> 0%N -> regd c = true) /\ (nfree c = true -> active c = 0%N /\ susp c = true /\ pid c = (-1)%Z).
Definition inv (s : state) : Prop :=
  (forall i, slot_ok (slots s i)) /\ (forall j, In j (jobs s) -> susp (slots s (j_in j)) = true) /\ NoDup (map j_in (jobs s)) /\
  (forall j t, In j (jobs s) -> j_tgt j = Some t -> active (slots s t) = j_cmd j /\ j_cmd j <> 0%N) /\ NoDup (targets (jobs s)).

Lemma inv_upd : forall s i c, inv s -> slot_ok c ->
  ((exists j, In j (jobs s) /\ j_in j = i) -> susp c = true) ->
  ((exists j, In j (jobs s) /\ j_tgt j = Some i) -> active c = active (slots s i)) -> inv (upd s i c).
Proof.
  intros s i c (A & B & C & D & E) Hc Hs Ha. split; [|split; [|split; [|split]]]; auto.
  - intros k. cbn. destruct (Nat.eqb k i); auto.
  - intros j Hj. cbn. destruct (Nat.eqb_spec (j_in j) i) as [e | e]; [apply Hs; exists j; auto|auto].
  - intros j t Hj Ht. cbn. destruct (Nat.eqb_spec t i) as [e | e]; [|apply D; auto]. subst t.
    destruct (D j i Hj Ht) as [D1 D2]. split; auto. rewrite Ha by (exists j; auto). exact D1.
Qed.
Lemma inv_upd_keep : forall s i c, inv s -> slot_ok c -> (susp (slots s i) = true -> susp c = true) ->
  (active (slots s i) <> 0%N -> active c = active (slots s i)) -> inv (upd s i c).
Proof.
  intros s i c I Hc Hs Ha. apply inv_upd; auto.
  - intros (j & Hj & <-). apply Hs. apply I. exact Hj.
  - intros (j & Hj & Ht). apply Ha. destruct I as (_ & _ & _ & D & _). destruct (D j i Hj Ht) as [D1 D2]. congruence.
Qed.
Lemma empty_ok : slot_ok empty_slot.
Proof.
  split; [|split; [|split]]; cbn; auto; try congruence. intros [H | H]; congruence.
Qed.
Lemma inv_free : forall s i, inv s -> (used (slots s i) = true -> pid (slots s i) = (-1)%Z -> active (slots s i) = 0%N) -> inv (free s i).
Proof.
  intros s i I H. assert (Q : slot_ok (slots s i)) by apply I. unfold free, free_slot.
  destruct (used (slots s i)) eqn:Eu; cbn [negb]; [|apply inv_upd_keep; auto].
  destruct (Z.eqb_spec (pid (slots s i)) (-1)) as [Ep | Ep]; cbn [negb]; [|apply inv_upd_keep; auto].
  specialize (H eq_refl Ep). destruct (susp (slots s i)) eqn:Es.
  - apply inv_upd_keep; auto. destruct Q as (Q1 & Q2 & Q3 & Q4). split; [|split; [|split]]; cbn; auto; try congruence.
  - apply inv_upd_keep; auto using empty_ok; congruence.
Qed.
Lemma inv_resume : forall s i, inv s -> ~ In i (map j_in (jobs s)) -> inv (resume s i).
Proof.
  intros s i I Hn. assert (Q : slot_ok (slots s i)) by apply I. unfold resume, resume_slot.
  destruct (used (slots s i)) eqn:Eu; cbn [negb]; [|apply inv_upd_keep; auto].
  destruct (susp (slots s i)) eqn:Es; cbn [negb]; [|apply inv_upd_keep; auto; congruence].
  assert (V : (exists j, In j (jobs s) /\ j_in j = i) -> False).
  { intros (j & Hj & He). apply Hn. subst i. apply in_map. exact Hj. }
  destruct Q as (Q1 & Q2 & Q3 & Q4). destruct (nfree (slots s i)) eqn:En.
  - destruct (Q4 eq_refl) as (Na & _ & Np). unfold free_slot. cbn. rewrite Eu, Np. cbn.
    apply inv_upd; auto using empty_ok; tauto.
  - apply inv_upd; auto; try tauto. split; [|split; [|split]]; cbn; auto; try congruence.
Qed.
Lemma not_in_jobs : forall s i, inv s -> susp (slots s i) = false -> ~ In i (map j_in (jobs s)).
Proof.
  intros s i I Hs Hi. apply in_map_iff in Hi as (j & <- & Hj). destruct I as (_ & B & _). rewrite (B j Hj) in Hs. discriminate.
Qed.
Lemma nfree_susp : forall c, slot_ok c -> susp c = false -> nfree c = false.
Proof. intros c (_ & _ & _ & Q) H. destruct (nfree c); auto. destruct (Q eq_refl) as (_ & E & _). congruence. Qed.

Lemma inv_suspend : forall s ci, inv s -> susp (slots s ci) = false -> used (slots s ci) = true -> inv (upd s ci (set_susp (slots s ci) true)).
Proof.
  intros s ci I Hs Hu. assert (Q : slot_ok (slots s ci)) by apply I. pose proof (nfree_susp _ Q Hs) as Hn.
  destruct Q as (Q1 & Q2 & Q3 & Q4). apply inv_upd_keep; auto. split; [|split; [|split]]; cbn; auto; congruence.
Qed.
Lemma inv_refuse : forall s ci e, inv s -> susp (slots s ci) = false -> used (slots s ci) = true ->
  inv (fst (refuse (upd s ci (set_susp (slots s ci) true)) ci e)).
Proof.
  intros s ci e I Hs Hu. cbn [fst refuse]. apply inv_resume; [apply inv_suspend; auto|]. cbn. apply not_in_jobs; auto.
Qed.

Lemma flat_app : forall l1 l2, targets (l1 ++ l2) = targets l1 ++ targets l2.
Proof. intros. unfold targets. apply flat_map_app. Qed.
Lemma in_targets : forall l t, In t (targets l) <-> exists j, In j l /\ j_tgt j = Some t.
Proof.
  intros l t. unfold targets. rewrite in_flat_map. split; intros (j & Hj & H); exists j; split; auto.
  - destruct (j_tgt j) as [x|]; [destruct H as [<- | []]; auto|destruct H].
  - rewrite H. left; auto.
Qed.
Lemma nodup_snoc : forall (l : list nat) x, NoDup l -> ~ In x l -> NoDup (l ++ [x]).
Proof.
  induction l as [|a l IH]; intros x H Hx; cbn; [constructor; auto; constructor|].
  inversion H; subst. constructor; [intros Hi; apply in_app_or in Hi as [Hi | [<- | []]]; auto; apply Hx; left; auto|].
  apply IH; auto. intros Hi. apply Hx. right; auto.
Qed.

Lemma inv_header : forall s ci h o, inv s -> used (slots s ci) = true -> susp (slots s ci) = false -> dead (slots s ci) = false ->
  inv (fst (header s ci h o)).
Proof.
  intros s ci h o I Hu Hs Hd. unfold header.
  destruct (negb _); [exact I|]. destruct (N.testbit _ 0); [exact I|]. destruct (_ && _ && _); [exact I|].
  assert (Q : slot_ok (slots s ci)) by apply I. pose proof (nfree_susp _ Q Hs) as Hn.
  assert (Hact : pid (slots s ci) = (-1)%Z -> active (slots s ci) = 0%N).
  { intros Hp. destruct (N.eq_dec (active (slots s ci)) 0) as [e | e]; auto. destruct Q as (_ & Q2 & _). destruct (Q2 e); congruence. }
  destruct (mem (h_cmd h) daemon_cmds).
  { cbn [fst]. unfold daemon_cmd. destruct (h_cmd h =? REGISTER)%N.
    - destruct (peer o) as [p|]; [|apply inv_free; auto].
      assert (I1 : inv (upd s ci (mkSlot (used (slots s ci)) (Z.of_N p) true (dead (slots s ci)) (nfree (slots s ci)) (kills (slots s ci)) (active (slots s ci)) (susp (slots s ci)) (restr (slots s ci))))).
      { apply inv_upd_keep; auto. split; [|split; [|split]]; cbn; auto; try congruence. intros _. left. lia. }
      destruct (tok_ok o); [exact I1|]. apply inv_free; auto. rewrite upd_same. cbn. lia.
    - destruct (h_cmd h =? RESTRICT)%N.
      + apply inv_upd_keep; auto. destruct Q as (Q1 & Q2 & Q3 & Q4). split; [|split; [|split]]; cbn; auto; congruence.
      + destruct (h_cmd h =? VERSION)%N; [exact I|]. apply inv_free; auto. }
  destruct (mem (h_cmd h) unreg_cmds || mem (h_cmd h) lease_cmds) eqn:Em; [|exact I]. rewrite Hs.
  pose proof (inv_suspend s ci I Hs Hu) as I1. pose proof (not_in_jobs s ci I Hs) as Hni.
  destruct (mem (h_cmd h) unreg_cmds) eqn:Eu.
  - unfold unreg_cmd. destruct (negb (mem_ok o)); [apply inv_refuse; auto|]. destruct (negb (pool_ok o)); [apply inv_refuse; auto|].
    destruct I1 as (A & B & C & D & E). cbn [fst]. split; [|split; [|split; [|split]]]; auto; cbn [jobs add_job].
    + intros j Hj. apply in_app_or in Hj as [Hj | [<- | []]]; [apply B; exact Hj|]. cbn. rewrite Nat.eqb_refl. reflexivity.
    + rewrite map_app. apply nodup_snoc; auto.
    + intros j t Hj Ht. apply in_app_or in Hj as [Hj | [<- | []]]; [apply D; auto|discriminate Ht].
    + rewrite flat_app. cbn. rewrite app_nil_r. exact E.
  - cbn [orb] in Em. unfold lease_cmd. destruct (negb (mem_ok o)); [apply inv_refuse; auto|].
    destruct (if (h_data2 h =? 4294967295)%N then _ else _) as [t|]; [|apply inv_refuse; auto].
    cbv zeta. set (s1 := upd s ci (set_susp (slots s ci) true)) in *.
    destruct (used (slots s1 t)) eqn:U; cbn [negb]; [|apply inv_refuse; auto].
    destruct (pid (slots s1 t) <=? 0)%Z eqn:P; [apply inv_refuse; auto|].
    destruct (dead (slots s1 t)) eqn:Dd; [apply inv_refuse; auto|].
    destruct (nfree (slots s1 t)) eqn:Nf; [apply inv_refuse; auto|].
    destruct (_ && _); [apply inv_refuse; auto|].
    destruct (N.eqb_spec (active (slots s1 t)) 0) as [Ac | Ac]; cbn [negb]; [|apply inv_refuse; auto].
    destruct (negb (pool_ok o)); [apply inv_refuse; auto|]. cbn [fst].
    assert (Hne : h_cmd h <> 0%N).
    { intros H0. rewrite H0 in Em. vm_compute in Em. discriminate. }
    assert (Hnt : ~ In t (targets (jobs s1))).
    { intros Hi. apply in_targets in Hi as (j & Hj & Ht). destruct I1 as (_ & _ & _ & D & _). destruct (D j t Hj Ht); congruence. }
    assert (I2 : inv (upd s1 t (set_active (slots s1 t) (h_cmd h)))).
    { clearbody s1. apply inv_upd_keep; auto; [|congruence]. destruct I1 as (A & _). destruct (A t) as (Q1 & Q2 & Q3 & Q4). apply Z.leb_gt in P.
      split; [|split; [|split]]; cbn; [congruence|intros _; left; lia|intros _; apply Q3; left; lia|intros; congruence]. }
    destruct I2 as (A & B & C & D & E). split; [|split; [|split; [|split]]]; auto; cbn [jobs add_job].
    + intros j Hj. apply in_app_or in Hj as [Hj | [<- | []]]; [apply B; exact Hj|]. cbn [j_in]. cbn.
      destruct (Nat.eqb_spec ci t) as [<- | e]; cbn; rewrite Nat.eqb_refl; reflexivity.
    + rewrite map_app. apply nodup_snoc; auto.
    + intros j x Hj Hx. apply in_app_or in Hj as [Hj | [<- | []]]; [apply D; auto|]. cbn in Hx. injection Hx as <-.
      cbn [slots add_job j_cmd]. rewrite upd_same. cbn. auto.
    + rewrite flat_app. cbn. apply nodup_snoc; auto.
Qed.

Lemma del_split : forall l k j, nth_error l k = Some j -> exists l1 l2, l = l1 ++ j :: l2 /\ del k l = l1 ++ l2.
Proof.
  induction l as [|x l IH]; intros k j H; destruct k as [|k]; try discriminate; cbn in H.
  - injection H as ->. exists [], l. auto.
  - destruct (IH k j H) as (l1 & l2 & -> & E). exists (x :: l1), l2. cbn. rewrite E. auto.
Qed.
Lemma inv_done : forall s k clear back, inv s -> inv (done s k clear back).
Proof.
  intros s k clear back I. unfold done. destruct (nth_error (jobs s) k) as [j|] eqn:En; [|exact I].
  destruct (del_split _ _ _ En) as (l1 & l2 & El & Ed). rewrite Ed.
  assert (Hin : forall x, In x (l1 ++ l2) -> In x (jobs s)).
  { intros x Hx. rewrite El. apply in_app_or in Hx as [Hx | Hx]; apply in_or_app; [left; auto|right; right; auto]. }
  destruct I as (A & B & C & D & E).
  assert (N1 : NoDup (map j_in (l1 ++ l2)) /\ ~ In (j_in j) (map j_in (l1 ++ l2))).
  { rewrite El, map_app in C. cbn in C. apply NoDup_remove in C. rewrite <- map_app in C. exact C. }
  assert (N2 : NoDup (targets (l1 ++ l2)) /\ forall t, j_tgt j = Some t -> ~ In t (targets (l1 ++ l2))).
  { rewrite El, flat_app in E. rewrite flat_app. cbn in E. fold targets in E. destruct (j_tgt j) as [t|].
    - cbn in E. apply NoDup_remove in E. split; [apply E|]. intros x [= <-]. apply E.
    - split; [exact E|]. intros t Ht. discriminate. }
  assert (I0 : inv (mkD (size s) (slots s) (l1 ++ l2))).
  { split; [|split; [|split; [|split]]]; cbn; auto; [apply N1|apply N2]. }
  assert (I1 : inv (match j_tgt j with Some t => if clear then let s1 := upd (mkD (size s) (slots s) (l1 ++ l2)) t (set_active (slots s t) 0) in if dead (slots s1 t) then free s1 t else s1 else mkD (size s) (slots s) (l1 ++ l2) | None => mkD (size s) (slots s) (l1 ++ l2) end) /\
    jobs (match j_tgt j with Some t => if clear then let s1 := upd (mkD (size s) (slots s) (l1 ++ l2)) t (set_active (slots s t) 0) in if dead (slots s1 t) then free s1 t else s1 else mkD (size s) (slots s) (l1 ++ l2) | None => mkD (size s) (slots s) (l1 ++ l2) end) = l1 ++ l2).
  { destruct (j_tgt j) as [t|] eqn:Et; [|auto]. destruct clear; [|auto]. cbv zeta.
    assert (I2 : inv (upd (mkD (size s) (slots s) (l1 ++ l2)) t (set_active (slots s t) 0))).
    { destruct (A t) as (Q1 & Q2 & Q3 & Q4). apply inv_upd; auto.
      - split; [|split; [|split]]; cbn [set_active used pid regd dead nfree active susp].
        + intros H. rewrite (Q1 H). reflexivity.
        + congruence.
        + intros [H | H]; [apply Q3; auto|congruence].
        + intros H. destruct (Q4 H) as (_ & ? & ?). auto.
      - intros (x & Hx & <-). cbn in Hx |- *. apply B. auto.
      - intros (x & Hx & Hxt). exfalso. destruct N2 as [_ N2]. apply (N2 t eq_refl). apply in_targets. exists x. auto. }
    destruct (dead _); [|auto]. split; [|reflexivity]. apply inv_free; auto. intros _ _. rewrite upd_same. reflexivity. }
  destruct I1 as [I1 J1]. destruct back; [|exact I1]. apply inv_resume; [exact I1|]. cbn [slots] in *. rewrite J1. apply N1.
Qed.

Lemma inv_gone : forall s ci, inv s -> inv (gone s ci).
Proof.
  intros s ci I. assert (Q : slot_ok (slots s ci)) by apply I. destruct Q as (Q1 & Q2 & Q3 & Q4). unfold gone.
  destruct (used (slots s ci)) eqn:Eu; cbn [negb]; [|exact I].
  destruct (regd (slots s ci)) eqn:Er; cbn [negb].
  - destruct (Z.eqb_spec (pid (slots s ci)) (-1)) as [Ep | Ep]; [exact I|].
    assert (Hn : nfree (slots s ci) = false) by (destruct (nfree (slots s ci)); auto; destruct (Q4 eq_refl) as (_ & _ & ?); contradiction).
    assert (I1 : inv (upd s ci (mkSlot true (-1) true true (nfree (slots s ci)) (kills (slots s ci)) (active (slots s ci)) (susp (slots s ci)) (restr (slots s ci))))).
    { apply inv_upd_keep; auto. split; [|split; [|split]]; cbn; auto; congruence. }
    destruct (N.eqb_spec (active (slots s ci)) 0) as [Ea | Ea]; [|exact I1]. apply inv_free; auto. intros _ _. rewrite upd_same. exact Ea.
  - apply inv_free; auto. intros _ _. destruct (N.eq_dec (active (slots s ci)) 0) as [e | e]; auto. specialize (Q3 (or_intror e)). congruence.
Qed.

Lemma inv_step : forall s x, (forall ci h o, x = OHeader ci h o -> dead (slots s ci) = false) -> inv s -> inv (step s x).
Proof.
  intros s x Hp I. destruct x; cbn [step].
  - destruct (find _ _) as [i|] eqn:Ef; [|exact I]. apply find_some in Ef as [_ Ef]. apply negb_true_iff in Ef.
    assert (Q : slot_ok (slots s i)) by apply I. destruct Q as (Q1 & _). rewrite (Q1 Ef). cbn.
    apply inv_upd_keep; auto; rewrite ?(Q1 Ef); cbn; auto; try congruence.
    split; [|split; [|split]]; cbn; try congruence. intros [H | H]; congruence.
  - destruct (used (slots s ci) && negb (susp (slots s ci))) eqn:Eu; [|exact I]. apply andb_true_iff in Eu as [U S]. apply negb_true_iff in S.
    apply inv_header; auto. exact (Hp ci h o eq_refl).
  - apply inv_gone; auto.
  - cbv zeta. destruct (0 <? pid (slots s ci))%Z eqn:Ez; [|exact I]. assert (Q : slot_ok (slots s ci)) by apply I. destruct Q as (Q1 & Q2 & Q3 & Q4).
    apply inv_upd_keep; auto. split; [|split; [|split]]; cbn; auto. intros Hu. specialize (Q1 Hu). rewrite Q1 in Ez. discriminate Ez.
  - apply inv_done; auto.
Qed.
