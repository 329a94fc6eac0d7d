(* Lemmas about ResThread.v. *)
From Coq Require Import List Arith Lia Bool.
From Verif Require Import ResThread.
Import ListNotations.

Definition rem_ids (s : state) := map r_id (s_rem s).
Definition held_ids (s : state) := map h_id (s_held s).
Definition orphan_ids (s : state) := map h_id (s_orphan s).
Definition all_ids (s : state) := rem_ids s ++ held_ids s ++ orphan_ids s.

(* ---- the lists ---- *)
Lemma drop_held_in : forall id l h, In h (drop_held id l) <-> In h l /\ h_id h <> id.
Proof.
  intros id l h. unfold drop_held, is_id. rewrite filter_In, negb_true_iff, Nat.eqb_neq. reflexivity.
Qed.
Lemma drop_rem_in : forall id l r, In r (drop_rem id l) <-> In r l /\ r_id r <> id.
Proof.
  intros id l r. unfold drop_rem, is_rem. rewrite filter_In, negb_true_iff, Nat.eqb_neq. reflexivity.
Qed.
Lemma nodup_map_filter {A} (f : A -> nat) (g : A -> bool) : forall l, NoDup (map f l) -> NoDup (map f (filter g l)).
Proof.
  induction l as [|a l IH]; cbn; intros H; [constructor|]. inversion H as [|? ? Hn Hd]; subst.
  destruct (g a); cbn; [constructor|]; auto.
  intros Hin. apply Hn. apply in_map_iff in Hin as (x & Hx & Hi). apply filter_In in Hi as [Hi _].
  apply in_map_iff. exists x. auto.
Qed.
Lemma map_ids_set_by : forall id b l, map r_id (set_by id b l) = map r_id l.
Proof. intros. unfold set_by. rewrite map_map. apply map_ext. intros a. destruct (is_rem id a); reflexivity. Qed.
Lemma map_ids_take : forall id n l, map r_id (take id n l) = map r_id l.
Proof. intros. unfold take. rewrite map_map. apply map_ext. intros a. destruct (is_rem id a); reflexivity. Qed.
Lemma map_ids_exam_all : forall w l, map h_id (exam_all w l) = map h_id l.
Proof. intros. unfold exam_all. rewrite map_map. apply map_ext. intros a. destruct (selected w (h_id a)); reflexivity. Qed.
Lemma map_ids_exam_off : forall id l, map h_id (exam_off id l) = map h_id l.
Proof. intros. unfold exam_off. rewrite map_map. apply map_ext. intros a. destruct (is_id id a); reflexivity. Qed.

(* ---- every resource is on one list, once ---- *)
Definition in3 (id : nat) (a b c : list nat) := In id a \/ In id b \/ In id c.
Definition apart (a b c : list nat) : Prop :=
  NoDup a /\ NoDup b /\ NoDup c /\ (forall x, In x a -> ~ In x b) /\ (forall x, In x a -> ~ In x c) /\ (forall x, In x b -> ~ In x c).
Definition one_list (s : state) : Prop := apart (rem_ids s) (held_ids s) (orphan_ids s).

Lemma busy_spec : forall s id, busy s id = false ->
  ~ In id (rem_ids s) /\ ~ In id (held_ids s) /\ ~ In id (orphan_ids s).
Proof.
  intros s id H. unfold busy in H. apply orb_false_iff in H as [H Ho]. apply orb_false_iff in H as [Hr Hh].
  repeat split; intros Hin; apply in_map_iff in Hin as (x & Hx & Hi).
  - assert (E : existsb (is_rem id) (s_rem s) = true) by (apply existsb_exists; exists x; split; auto; apply Nat.eqb_eq; auto). congruence.
  - assert (E : existsb (is_id id) (s_held s) = true) by (apply existsb_exists; exists x; split; auto; apply Nat.eqb_eq; auto). congruence.
  - assert (E : existsb (is_id id) (s_orphan s) = true) by (apply existsb_exists; exists x; split; auto; apply Nat.eqb_eq; auto). congruence.
Qed.

Lemma map_drop_held : forall id l, incl (map h_id (drop_held id l)) (map h_id l) /\ ~ In id (map h_id (drop_held id l)).
Proof.
  intros id l. split.
  - intros x Hx. apply in_map_iff in Hx as (h & <- & Hh). apply drop_held_in in Hh as [Hh _]. apply in_map; auto.
  - intros Hx. apply in_map_iff in Hx as (h & He & Hh). apply drop_held_in in Hh as [_ Hh]. contradiction.
Qed.
Lemma map_drop_rem : forall id l, incl (map r_id (drop_rem id l)) (map r_id l) /\ ~ In id (map r_id (drop_rem id l)).
Proof.
  intros id l. split.
  - intros x Hx. apply in_map_iff in Hx as (h & <- & Hh). apply drop_rem_in in Hh as [Hh _]. apply in_map; auto.
  - intros Hx. apply in_map_iff in Hx as (h & He & Hh). apply drop_rem_in in Hh as [_ Hh]. contradiction.
Qed.

Lemma find_id : forall id l h, find (is_id id) l = Some h -> In h l /\ h_id h = id.
Proof. intros id l h H. apply find_some in H as [H1 H2]. split; auto. apply Nat.eqb_eq; auto. Qed.

Lemma apart_sub : forall a b c a' b' c', apart a b c -> NoDup a' -> NoDup b' -> NoDup c' ->
  incl a' a -> incl b' b -> incl c' c -> apart a' b' c'.
Proof. intros a b c a' b' c' (A & B & C & D & E & F) Na Nb Nc Ia Ib Ic. repeat split; auto; intros x Hx Hy; [apply (D x)|apply (E x)|apply (F x)]; auto. Qed.

Lemma drop_held_nodup : forall id l, NoDup (map h_id l) -> NoDup (map h_id (drop_held id l)).
Proof. intros. apply nodup_map_filter; auto. Qed.
Lemma drop_rem_nodup : forall id l, NoDup (map r_id l) -> NoDup (map r_id (drop_rem id l)).
Proof. intros. apply nodup_map_filter; auto. Qed.

Lemma apart_b_to_a : forall a b c id l, apart a (map h_id l) c -> b = map h_id (drop_held id l) -> In id (map h_id l) ->
  apart (id :: a) b c.
Proof.
  intros a b c id l (A & B & C & D & E & F) -> Hin. destruct (map_drop_held id l) as [Hi Hn].
  repeat split; auto.
  - constructor; auto. intros H. apply (D id H Hin).
  - apply drop_held_nodup; auto.
  - intros x [<- | Hx]; auto. intros Hy. apply (D x Hx). auto.
  - intros x [<- | Hx]; auto.
Qed.
Lemma apart_b_to_c : forall a b c id l, apart a (map h_id l) c -> b = map h_id (drop_held id l) -> In id (map h_id l) ->
  apart a b (id :: c).
Proof.
  intros a b c id l (A & B & C & D & E & F) -> Hin. destruct (map_drop_held id l) as [Hi Hn].
  repeat split; auto.
  - apply drop_held_nodup; auto.
  - constructor; auto.
  - intros x Hx Hy. apply (D x Hx). auto.
  - intros x Hx [<- | Hy]; [apply (D id Hx Hin)|apply (E x Hx Hy)].
  - intros x Hx [<- | Hy]; [contradiction|]. apply (F x); auto.
Qed.
Lemma apart_c_to_b : forall a b c id l, apart a b (map h_id l) -> c = map h_id (drop_held id l) -> In id (map h_id l) ->
  apart a (id :: b) c.
Proof.
  intros a b c id l (A & B & C & D & E & F) -> Hin. destruct (map_drop_held id l) as [Hi Hn].
  repeat split; auto.
  - constructor; auto. intros H. apply (F id H Hin).
  - apply drop_held_nodup; auto.
  - intros x Hx [<- | Hy]; [apply (E id Hx Hin)|apply (D x Hx Hy)].
  - intros x Hx Hy. apply (E x Hx). auto.
  - intros x [<- | Hx]; auto. intros Hy. apply (F x Hx). auto.
Qed.

Lemma partition_ids : forall (p : held -> bool) l yes no, partition p l = (yes, no) -> NoDup (map h_id l) ->
  NoDup (map h_id yes) /\ NoDup (map h_id no) /\ (forall x, In x (map h_id yes) -> ~ In x (map h_id no)) /\
  incl (map h_id yes) (map h_id l) /\ incl (map h_id no) (map h_id l).
Proof.
  intros p. induction l as [|h l IH]; intros yes no H Hd.
  - cbn in H. injection H as <- <-. cbn. repeat split; auto using NoDup_nil; intros x [].
  - cbn in H. destruct (partition p l) as [y n] eqn:Ep. inversion Hd as [|? ? Hn Hd']; subst.
    destruct (IH y n eq_refl Hd') as (A & B & C & D & E).
    destruct (p h); injection H as <- <-; cbn; repeat split; auto.
    + constructor; auto.
    + intros x [<- | Hx]; [intros Hx; apply Hn; auto|apply C; auto].
    + intros x [<- | Hx]; [left; auto|right; auto].
    + intros x Hx; right; auto.
    + constructor; auto.
    + intros x Hx [<- | Hy]; [apply Hn; auto|apply (C x); auto].
    + intros x Hx; right; auto.
    + intros x [<- | Hx]; [left; auto|right; auto].
Qed.

Lemma one_list_step : forall s o, one_list s -> one_list (step s o).
Proof.
  intros s o H. unfold one_list, rem_ids, held_ids, orphan_ids in *. destruct o; cbn [step].
  - exact H.
  - exact H.
  - destruct (existsb _ _); cbn; auto. rewrite map_ids_exam_all. exact H.
  - destruct (busy s id) eqn:Eb; auto. cbn. destruct (busy_spec _ _ Eb) as (N1 & N2 & N3).
    unfold rem_ids, held_ids, orphan_ids in *. destruct H as (A & B & C & D & E & F). repeat split; auto.
    + constructor; auto.
    + intros x Hx [<- | Hy]; auto. apply (D x); auto.
    + intros x [<- | Hx]; auto.
  - destruct (existsb (is_rem id) (s_rem s) || existsb (is_id id) (s_held s)); auto.
    destruct (find (is_id id) (s_orphan s)) as [h|] eqn:Ef; auto. cbn. destruct (find_id _ _ _ Ef) as [Hi <-].
    apply apart_c_to_b with (l := s_orphan s); auto. apply in_map; auto.
  - destruct (find (is_id id) (s_held s)) as [h|] eqn:Ef; auto. cbn. destruct (find_id _ _ _ Ef) as [Hi <-].
    apply apart_b_to_a with (l := s_held s); auto. apply in_map; auto.
  - cbn. eapply apart_sub; [exact H|apply H|apply drop_held_nodup; apply H|apply H|apply incl_refl|apply map_drop_held|apply incl_refl].
  - destruct (find (is_id id) (s_held s)) as [h|] eqn:Ef; auto. cbn. destruct (find_id _ _ _ Ef) as [Hi <-].
    apply apart_b_to_c with (l := s_held s); auto. apply in_map; auto.
  - destruct (partition _ (s_orphan s)) as [yes no] eqn:Ep.
    assert (G : apart (map r_id (rev (map (fun h => mkRem (h_id h) Flagged 0 (h_io h)) yes) ++ s_rem s)) (map h_id (s_held s)) (map h_id no)).
    { destruct H as (A & B & C & D & E & F). destruct (partition_ids _ _ _ _ Ep C) as (P1 & P2 & P3 & P4 & P5).
      assert (Em : map r_id (rev (map (fun h => mkRem (h_id h) Flagged 0 (h_io h)) yes)) = rev (map h_id yes)).
      { rewrite map_rev, map_map. reflexivity. }
      rewrite map_app, Em.
      assert (Hin : forall x, In x (rev (map h_id yes) ++ map r_id (s_rem s)) -> In x (map h_id yes) \/ In x (map r_id (s_rem s))).
      { intros x Hx. apply in_app_or in Hx as [Hx | Hx]; auto. left. apply in_rev; auto. }
      repeat split; auto.
      - clear - P1 A E P4. assert (Q : forall x, In x (rev (map h_id yes)) -> ~ In x (map r_id (s_rem s))).
        { intros x Hx Hy. apply (E x Hy). apply P4. apply in_rev; auto. }
        apply NoDup_rev in P1. revert P1 Q. generalize (rev (map h_id yes)). intros l. induction l as [|a l IH]; cbn; auto.
        intros Hd Q. inversion Hd; subst. constructor.
        + intros Hx. apply in_app_or in Hx as [Hx | Hx]; auto. apply (Q a); auto.
        + apply IH; auto.
      - intros x Hx Hy. destruct (Hin x Hx) as [Hx' | Hx']; [apply (F x Hy); auto|apply (D x Hx' Hy)].
      - intros x Hx Hy. destruct (Hin x Hx) as [Hx' | Hx']; [apply (P3 x Hx' Hy)|apply (E x Hx'); auto].
      - intros x Hx Hy. apply (F x Hx); auto. }
    destruct yes as [|y ys]; auto. 
  - destruct (find (is_id id) (s_held s)) as [h|] eqn:Ef; auto. cbn. destruct (find_id _ _ _ Ef) as [Hi <-].
    apply apart_b_to_a with (l := s_held s); auto. apply in_map; auto.
  - destruct (existsb _ _); auto. destruct timeout; cbn.
    + rewrite map_ids_set_by. exact H.
    + eapply apart_sub; [exact H|apply drop_rem_nodup; apply H|apply H|apply H|apply map_drop_rem|apply incl_refl|apply incl_refl].
  - destruct (match s_rem s with [] => true | _ => s_work s end); auto.
  - exact H.
  - unfold thread. destruct (s_ph s); auto.
    + unfold thread_top. destruct (negb (s_work s)); [destruct (s_stop s); auto|].
      destruct (s_ev s); auto. destruct (find _ (s_rem s)); cbn.
      * rewrite map_ids_take. exact H.
      * destruct (if s_workx s then _ else _); cbn; auto. rewrite map_ids_exam_off. exact H.
    + destruct timeout; cbn.
      * rewrite map_ids_set_by. exact H.
      * eapply apart_sub; [exact H|apply drop_rem_nodup; apply H|apply H|apply H|apply map_drop_rem|apply incl_refl|apply incl_refl].
Qed.
Lemma one_list_run : forall os s, one_list s -> one_list (run s os).
Proof. induction os as [|o os IH]; intros s H; cbn; auto. apply IH. apply one_list_step; auto. Qed.
Lemma one_list_init : one_list init.
Proof. repeat split; try constructor; intros x []. Qed.

(* ---- who releases what ---- *)
Definition hands (s : state) : Prop :=
  (forall id, s_ph s = Releasing id -> exists r, In r (s_rem s) /\ r_id r = id /\ r_by r = ByThread) /\
  (forall r, In r (s_rem s) -> r_by r = ByThread -> s_ph s = Releasing (r_id r)).

Lemma set_by_in : forall id b l r, In r (set_by id b l) ->
  exists q, In q l /\ r_id q = r_id r /\ ((r_id q = id /\ r = mkRem (r_id q) b (r_retry q) (r_io q)) \/ (r_id q <> id /\ r = q)).
Proof.
  intros id b l r H. unfold set_by in H. apply in_map_iff in H as (q & Hq & Hi). exists q. unfold is_rem in Hq.
  destruct (Nat.eqb_spec (r_id q) id) as [e | n]; subst r; auto 6.
Qed.
Lemma take_in : forall id now l r, In r (take id now l) ->
  exists q, In q l /\ r_id q = r_id r /\
  ((r_id q = id /\ r = mkRem (r_id q) ByThread (if r_retry q =? 0 then now + r_io q else now + r_io q * 2) (r_io q)) \/ (r_id q <> id /\ r = q)).
Proof.
  intros id now l r H. unfold take in H. apply in_map_iff in H as (q & Hq & Hi). exists q. unfold is_rem in Hq.
  destruct (Nat.eqb_spec (r_id q) id) as [e | n]; subst r; auto 6.
Qed.

Lemma hands_same : forall s s', s_ph s' = s_ph s -> s_rem s' = s_rem s -> hands s -> hands s'.
Proof. unfold hands. intros s s' -> -> H. exact H. Qed.
Lemma hands_add : forall s s' h b, s_ph s' = s_ph s -> s_rem s' = to_rem s h b -> b <> ByThread -> hands s -> hands s'.
Proof.
  unfold hands. intros s s' h b -> -> Hb [H1 H2]. split.
  - intros id Hp. destruct (H1 id Hp) as (r & A & B). exists r. split; auto. right; auto.
  - intros r [<- | Hr] Ht; [cbn in Ht; contradiction|auto].
Qed.

Lemma hands_step : forall s o, one_list s -> hands s -> hands (step s o).
Proof.
  intros s o Hone H. destruct o; cbn [step].
  - eapply hands_same; [| |exact H]; reflexivity.
  - eapply hands_same; [| |exact H]; reflexivity.
  - destruct (existsb _ _); auto.
  - destruct (busy s id); auto.
  - destruct (existsb _ _ || _); auto. destruct (find _ _); auto.
  - destruct (find _ _) as [h|]; auto. eapply hands_add with (s := s) (h := h) (b := Flagged); [reflexivity|reflexivity|discriminate|exact H].
  - eapply hands_same; [| |exact H]; reflexivity.
  - destruct (find _ _); auto.
  - destruct (partition _ _) as [yes no]. destruct yes as [|y ys]; auto. destruct H as [H1 H2]. split.
    + intros id Hp. destruct (H1 id Hp) as (r & A & B). exists r. split; auto.
      change (In r (rev (map (fun h => mkRem (h_id h) Flagged 0 (h_io h)) (y :: ys)) ++ s_rem s)). apply in_or_app. auto.
    + intros r Hr Ht. change (In r (rev (map (fun h => mkRem (h_id h) Flagged 0 (h_io h)) (y :: ys)) ++ s_rem s)) in Hr.
      apply in_app_or in Hr as [Hr | Hr]; [|apply H2; auto].
      apply in_rev in Hr. apply in_map_iff in Hr as (h & <- & _). discriminate Ht.
  - destruct (find _ _) as [h|]; auto. eapply hands_add with (s := s) (h := h) (b := Sync); [reflexivity|reflexivity|discriminate|exact H].
  - destruct (existsb _ _) eqn:Ex; auto. apply existsb_exists in Ex as (q & Hq & Hq2). apply andb_true_iff in Hq2 as [Hi Hsy].
    apply Nat.eqb_eq in Hi. destruct (r_by q) eqn:Eby; try discriminate Hsy. destruct H as [H1 H2].
    assert (Hne : forall r, In r (s_rem s) -> r_by r = ByThread -> r_id r <> id).
    { intros r Hr Ht He. destruct Hone as (Hn & _). unfold rem_ids in Hn.
      assert (r = q); [|subst; congruence]. clear - Hn Hr Hq Hi He.
      induction (s_rem s) as [|a l IH]; [destruct Hr|]. cbn in Hn. inversion Hn as [|? ? Hx Hy]; subst.
      destruct Hr as [-> | Hr], Hq as [-> | Hq]; auto.
      - exfalso. apply Hx. rewrite He. apply in_map; auto.
      - exfalso. apply Hx. rewrite <- He. apply in_map; auto. }
    destruct timeout; split.
    + intros k Hp. destruct (H1 k Hp) as (r & A & B & C). exists r. repeat split; auto. cbn.
      unfold set_by. apply in_map_iff. exists r. split; auto. unfold is_rem.
      destruct (Nat.eqb_spec (r_id r) id); auto. exfalso. apply (Hne r); auto.
    + intros r Hr Ht. cbn in Hr. apply set_by_in in Hr as (q' & A & B & [[C D] | [C D]]); subst r; [discriminate Ht|apply H2; auto].
    + intros k Hp. destruct (H1 k Hp) as (r & A & B & C). exists r. repeat split; auto. cbn. apply drop_rem_in. split; auto.
    + intros r Hr Ht. cbn in Hr. apply drop_rem_in in Hr as [Hr _]. apply H2; auto.
  - destruct (match s_rem s with [] => true | _ => s_work s end); auto.
  - eapply hands_same; [| |exact H]; reflexivity.
  - destruct H as [H1 H2]. unfold thread. destruct (s_ph s) eqn:Ep.
    + assert (Hnt : forall r, In r (s_rem s) -> r_by r <> ByThread) by (intros r Hr Ht; specialize (H2 r Hr Ht); discriminate).
      unfold thread_top. destruct (negb (s_work s)).
      { destruct (s_stop s); split; cbn; try (rewrite Ep); try discriminate; intros r Hr Ht; exfalso; apply (Hnt r); auto. }
      destruct (s_ev s) as [|e q].
      * destruct (find (due (s_now s)) (s_rem s)) as [r0|] eqn:Ef.
        -- apply find_some in Ef as [Hi _]. split; cbn.
           ++ intros id [= <-]. eexists. split; [unfold take; apply in_map_iff; exists r0; split; [reflexivity|exact Hi]|].
              unfold is_rem. rewrite Nat.eqb_refl. cbn. auto.
           ++ intros r Hr Ht. apply take_in in Hr as (q & A & B & [[C D] | [C D]]); subst r; [rewrite <- B, C; auto|].
              exfalso. apply (Hnt q); auto.
        -- destruct (if s_workx s then _ else _); split; cbn; try (rewrite Ep); try discriminate; intros r Hr Ht; exfalso; apply (Hnt r); auto.
      * split; cbn; try discriminate; intros r Hr Ht; exfalso; apply (Hnt r); auto.
    + split; cbn; [discriminate|]. intros r Hr Ht. specialize (H2 r Hr Ht). discriminate.
    + assert (Hid : forall r, In r (s_rem s) -> r_by r = ByThread -> r_id r = id) by (intros r Hr Ht; specialize (H2 r Hr Ht); congruence).
      destruct timeout; split; cbn; try discriminate; intros r Hr Ht.
      * apply set_by_in in Hr as (q & A & B & [[C D] | [C D]]); subst r; [discriminate Ht|]. exfalso. apply C. apply Hid; auto.
      * apply drop_rem_in in Hr as [Hr Hn]. exfalso. apply Hn. apply Hid; auto.
    + split; cbn; [discriminate|]. intros r Hr Ht. specialize (H2 r Hr Ht). discriminate.
    + split; [|intros r Hr Ht; rewrite Ep; exact (H2 r Hr Ht)]. intros k Hk. rewrite Ep in Hk. discriminate Hk.
Qed.
Lemma hands_run : forall os s, one_list s -> hands s -> hands (run s os).
Proof.
  induction os as [|o os IH]; intros s H1 H2; cbn; auto. apply IH; [apply one_list_step; auto|apply hands_step; auto].
Qed.
Lemma hands_init : hands init.
Proof. split; [discriminate|intros r []]. Qed.

(* ---- events ---- *)
Fixpoint sent (l : list did) : list nat :=
  match l with [] => [] | DSent e :: l => e :: sent l | _ :: l => sent l end.
Fixpoint events (os : list op) : list nat :=
  match os with [] => [] | OEvent e :: os => e :: events os | _ :: os => events os end.
Definition in_flight (p : phase) : list nat := match p with Sending e => [e] | _ => [] end.
Definition queue (s : state) : list nat := sent (s_log s) ++ in_flight (s_ph s) ++ s_ev s.

Lemma sent_app : forall a b, sent (a ++ b) = sent a ++ sent b.
Proof. induction a as [|x a IH]; intros b; cbn; auto. destruct x; cbn; rewrite IH; auto. Qed.

Lemma queue_step : forall s o, queue (step s o) = queue s ++ events [o].
Proof.
  intros s o. destruct o; cbn [events step]; rewrite ?app_nil_r; try reflexivity.
  - unfold queue. cbn. rewrite <- !app_assoc. reflexivity.
  - destruct (existsb _ _); reflexivity.
  - destruct (busy s id); reflexivity.
  - destruct (existsb _ _ || _); auto. destruct (find _ _); reflexivity.
  - destruct (find _ _); reflexivity.
  - destruct (find _ _); reflexivity.
  - destruct (partition _ _) as [yes no]. destruct yes; reflexivity.
  - destruct (find _ _); reflexivity.
  - destruct (existsb _ _); reflexivity.
  - destruct (match s_rem s with [] => true | _ => s_work s end); reflexivity.
  - unfold thread. destruct (s_ph s) eqn:Ep; unfold queue; rewrite ?Ep.
    + unfold thread_top. destruct (negb (s_work s)); [destruct (s_stop s)|]; cbn; rewrite ?Ep, ?app_nil_r; auto.
      destruct (s_ev s) as [|e q] eqn:Ee; cbn; rewrite ?app_nil_r; auto.
      destruct (find _ (s_rem s)); [cbn; rewrite Ee, sent_app; cbn; rewrite ?app_nil_r; reflexivity|].
      destruct (if s_workx s then _ else _); cbn; rewrite ?Ep, ?Ee, ?app_nil_r; reflexivity.
    + cbn. rewrite sent_app. cbn. rewrite <- app_assoc. reflexivity.
    + destruct timeout; cbn; rewrite ?sent_app; cbn; rewrite ?app_nil_r; reflexivity.
    + cbn. rewrite sent_app; cbn. rewrite ?app_nil_r. reflexivity.
    + cbn. rewrite ?Ep. reflexivity.
Qed.
Lemma events_cons : forall o os, events (o :: os) = events [o] ++ events os.
Proof. intros o os. destruct o; reflexivity. Qed.
Lemma queue_run : forall os s, queue (run s os) = queue s ++ events os.
Proof.
  induction os as [|o os IH]; intros s; [cbn; rewrite app_nil_r; auto|].
  change (run s (o :: os)) with (run (step s o) os). rewrite IH, queue_step, <- app_assoc, <- events_cons. reflexivity.
Qed.

(* ---- the thread does not sleep over work ---- *)
Definition awake (s : state) : Prop :=
  (s_ev s <> [] -> s_work s = true) /\ (s_workx s = true -> s_work s = true).
Lemma awake_step : forall s o, awake s -> awake (step s o).
Proof.
  intros s o [H1 H2]. unfold awake. destruct o; cbn [step]; cbn; auto.
  - destruct (existsb _ _); cbn; auto.
  - destruct (busy s id); cbn; auto.
  - destruct (existsb _ _ || _); auto. destruct (find _ _); cbn; auto.
  - destruct (find _ _); cbn; auto.
  - destruct (find _ _); cbn; auto.
  - destruct (partition _ _) as [yes no]. destruct yes; cbn; auto.
  - destruct (find _ _); cbn; auto.
  - destruct (existsb _ _); cbn; auto.
  - destruct (match s_rem s with [] => true | _ => s_work s end); cbn; auto.
  - unfold thread. destruct (s_ph s); cbn; auto; [|destruct timeout; cbn; auto].
    unfold thread_top. destruct (negb (s_work s)) eqn:En; [destruct (s_stop s); cbn; auto|].
    apply negb_false_iff in En.
    destruct (s_ev s) as [|e q] eqn:Ee; [|cbn; auto].
    destruct (find _ (s_rem s)); [cbn; rewrite Ee; auto|].
    destruct (if s_workx s then _ else _); cbn; rewrite Ee; split; auto; try discriminate; intros H; contradiction.
Qed.
Lemma awake_run : forall os s, awake s -> awake (run s os).
Proof. induction os as [|o os IH]; intros s H; cbn; auto. apply IH, awake_step; auto. Qed.
Lemma awake_init : awake init.
Proof. split; [intros H; contradiction|discriminate]. Qed.

(* no resource comes back from the orphans with the flag *)
Definition adopts (o : op) : bool := match o with OAdopt _ => true | _ => false end.
Definition flags_seen (s : state) : Prop := forall h, In h (s_held s) -> h_exam h = true -> s_workx s = true.
Lemma flags_seen_step : forall s o, adopts o = false -> flags_seen s -> flags_seen (step s o).
Proof.
  intros s o Ha H. destruct o; cbn [step]; try discriminate Ha; try exact H.
  - destruct (existsb _ _); auto. intros h _ _. reflexivity.
  - destruct (busy s id); auto. intros h [<- | Hh] He; [discriminate He|]. exact (H h Hh He).
  - destruct (find _ _); auto. intros k Hk He. cbn in Hk. apply drop_held_in in Hk as [Hk _]. exact (H k Hk He).
  - intros k Hk He. cbn in Hk. apply drop_held_in in Hk as [Hk _]. exact (H k Hk He).
  - destruct (find _ _); auto. intros k Hk He. cbn in Hk. apply drop_held_in in Hk as [Hk _]. exact (H k Hk He).
  - destruct (partition _ _) as [yes no]. destruct yes; auto.
  - destruct (find _ _); auto. intros k Hk He. cbn in Hk. apply drop_held_in in Hk as [Hk _]. exact (H k Hk He).
  - destruct (existsb _ _); auto.
  - destruct (match s_rem s with [] => true | _ => s_work s end); auto.
  - unfold thread. destruct (s_ph s); try exact H; [|destruct timeout; exact H].
    unfold thread_top. destruct (negb (s_work s)); [destruct (s_stop s); exact H|].
    destruct (s_ev s); [|exact H]. destruct (find _ (s_rem s)); [exact H|].
    destruct (s_workx s) eqn:Ex.
    + destruct (find h_exam (s_held s)) as [h0|] eqn:Ef.
      * intros h Hh He. cbn. exact Ex.
      * intros h Hh He. cbn in Hh. pose proof (find_none _ _ Ef h Hh). congruence.
    + intros h Hh He. cbn in Hh. cbn. specialize (H h Hh He). congruence.
Qed.
Lemma flags_seen_run : forall os s, forallb (fun o => negb (adopts o)) os = true -> flags_seen s -> flags_seen (run s os).
Proof.
  induction os as [|o os IH]; intros s Ho H; cbn; auto. cbn in Ho. apply andb_true_iff in Ho as [A B]. apply negb_true_iff in A.
  apply IH; auto. apply flags_seen_step; auto.
Qed.

(* ---- the thread gets through its work ---- *)
Definition count {A} (f : A -> bool) (l : list A) : nat := length (filter f l).
Definition load (s : state) : nat :=
  2 * length (s_ev s) + 2 * count (due (s_now s)) (s_rem s) + 2 * count h_exam (s_held s) +
  (match s_ph s with Top | Exited => 0 | _ => 1 end) + (if s_work s then 1 else 0).

Lemma count_map_le {A} (f : A -> bool) (g : A -> A) : forall l, (forall x, In x l -> f (g x) = true -> f x = true) -> count f (map g l) <= count f l.
Proof.
  induction l as [|a l IH]; intros H; [reflexivity|]. unfold count in *. cbn.
  assert (IH' := IH (fun x Hx => H x (or_intror Hx))). pose proof (H a (or_introl eq_refl)) as Ha.
  destruct (f (g a)); [rewrite Ha by reflexivity|destruct (f a)]; cbn; lia.
Qed.
Lemma count_map_lt {A} (f : A -> bool) (g : A -> A) : forall l a, (forall x, In x l -> f (g x) = true -> f x = true) ->
  In a l -> f a = true -> f (g a) = false -> count f (map g l) < count f l.
Proof.
  induction l as [|b l IH]; intros a H Hi Ha Hg; [destruct Hi|]. unfold count in *. cbn. destruct Hi as [-> | Hi].
  - rewrite Ha, Hg. cbn. pose proof (count_map_le f g l (fun x Hx => H x (or_intror Hx))). unfold count in *. lia.
  - pose proof (IH a (fun x Hx => H x (or_intror Hx)) Hi Ha Hg). pose proof (H b (or_introl eq_refl)) as Hb.
    destruct (f (g b)); [rewrite Hb by reflexivity|destruct (f b)]; cbn; lia.
Qed.
Lemma count_filter_le {A} (f g : A -> bool) : forall l, count f (filter g l) <= count f l.
Proof. induction l as [|a l IH]; [reflexivity|]. unfold count in *. cbn. destruct (g a); cbn; destruct (f a); cbn; lia. Qed.
Lemma count_0 {A} (f : A -> bool) : forall l, count f l = 0 -> forall x, In x l -> f x = false.
Proof.
  induction l as [|a l IH]; intros H x Hx; [destruct Hx|]. unfold count in *. cbn in H. destruct (f a) eqn:Ea; [discriminate H|].
  destruct Hx as [<- | Hx]; auto.
Qed.

(* a resource in the hands of the thread is due later *)
Definition later (s : state) : Prop :=
  (forall r, In r (s_rem s) -> 0 < r_io r) /\
  (forall id, s_ph s = Releasing id -> forall r, In r (s_rem s) -> r_id r = id -> s_now s < r_retry r).

Lemma later_thread : forall s t, later s -> later (thread s t).
Proof.
  intros s t [Hio Hl]. unfold thread. destruct (s_ph s) eqn:Ep.
  - unfold thread_top. destruct (negb (s_work s)).
    { destruct (s_stop s); split; cbn; auto; rewrite ?Ep; discriminate. }
    destruct (s_ev s); [|split; cbn; auto; discriminate].
    destruct (find (due (s_now s)) (s_rem s)) as [r0|] eqn:Ef.
    + split; cbn.
      * intros r Hr. apply take_in in Hr as (q & A & B & [[C D] | [C D]]); subst r; cbn; auto.
      * intros id [= <-] r Hr Hid. apply take_in in Hr as (q & A & B & [[C D] | [C D]]); subst r; [|congruence].
        cbn. specialize (Hio q A). destruct (r_retry q =? 0); lia.
    + destruct (if s_workx s then _ else _); split; cbn; auto; rewrite ?Ep; discriminate.
  - split; cbn; auto; discriminate.
  - destruct t; split; cbn; try discriminate; intros r Hr.
    + apply set_by_in in Hr as (q & A & B & [[C D] | [C D]]); subst r; cbn; auto.
    + apply drop_rem_in in Hr as [Hr _]; auto.
  - split; cbn; auto; discriminate.
  - split; auto. intros id Hp. congruence.
Qed.

Ltac reds := cbn [s_ev s_rem s_held s_orphan s_work s_workx s_stop s_ph s_now s_log set_ph set_lists set_work set_ev length].
Lemma load_thread : forall s t, later s -> s_ph s <> Exited -> (s_work s = true \/ s_ph s <> Top) -> load (thread s t) < load s.
Proof.
  intros s t [Hio Hl] Hx Hw. unfold thread. destruct (s_ph s) eqn:Ep; unfold load; rewrite ?Ep.
  - destruct Hw as [Hw | Hw]; [|contradiction]. unfold thread_top. rewrite Hw. cbn [negb].
    destruct (s_ev s) as [|e q] eqn:Ee.
    + destruct (find (due (s_now s)) (s_rem s)) as [r0|] eqn:Ef.
      * apply find_some in Ef as [Hi Hd]. reds. rewrite Ee, Hw. cbn [length].
        assert (L : count (due (s_now s)) (take (r_id r0) (s_now s) (s_rem s)) < count (due (s_now s)) (s_rem s)).
        { unfold take. apply count_map_lt with (a := r0); auto.
          - intros x _. destruct (is_rem (r_id r0) x); [discriminate|auto].
          - unfold is_rem. rewrite Nat.eqb_refl. reflexivity. }
        lia.
      * destruct (s_workx s).
        -- destruct (find h_exam (s_held s)) as [h|] eqn:Eh.
           ++ apply find_some in Eh as [Hi Hd]. reds. rewrite Ee, Hw. cbn [length].
              assert (L : count h_exam (exam_off (h_id h) (s_held s)) < count h_exam (s_held s)).
              { unfold exam_off. apply count_map_lt with (a := h); auto.
                - intros x _. destruct (is_id (h_id h) x); [discriminate|auto].
                - unfold is_id. rewrite Nat.eqb_refl. reflexivity. }
              lia.
           ++ reds. rewrite Ee, Ep, ?Hw. cbn [length]. lia.
        -- reds. rewrite Ee, Ep, ?Hw. cbn [length]. lia.
    + reds. rewrite ?Hw. lia.
  - reds. lia.
  - destruct t; reds.
    + assert (L : count (due (s_now s)) (set_by id Flagged (s_rem s)) <= count (due (s_now s)) (s_rem s)).
      { unfold set_by. apply count_map_le. intros x Hx0. unfold is_rem. destruct (Nat.eqb_spec (r_id x) id) as [e | n]; auto.
        unfold due, flagged. cbn. intros Hle. apply Nat.leb_le in Hle. specialize (Hl id eq_refl x Hx0 e). lia. }
      lia.
    + pose proof (count_filter_le (due (s_now s)) (fun r => negb (is_rem id r)) (s_rem s)). unfold drop_rem. lia.
  - reds. lia.
  - contradiction.
Qed.

Definition threads (ts : list bool) : list op := map OThread ts.

(* what is to be done stays until it is done *)
Definition tried (id : nat) (s : state) : Prop := In (DTried id) (s_log s).
Definition examined (id : nat) (s : state) : Prop := In (DExam id) (s_log s).
Lemma log_thread : forall s t x, In x (s_log s) -> In x (s_log (thread s t)).
Proof.
  intros s t x H. assert (S : forall p l, In x (s_log (set_ph s p l))) by (intros; cbn; apply in_or_app; auto).
  unfold thread. destruct (s_ph s); auto.
  - unfold thread_top. destruct (negb (s_work s)); [destruct (s_stop s); auto|]. destruct (s_ev s); [|cbn; apply in_or_app; auto].
    destruct (find _ (s_rem s)); [cbn; apply in_or_app; auto|]. destruct (if s_workx s then _ else _); [cbn; apply in_or_app; auto|exact H].
  - destruct t; cbn; apply in_or_app; auto.
Qed.
Definition owed_rem (s : state) (id : nat) : Prop := exists r, In r (s_rem s) /\ r_id r = id /\ due (s_now s) r = true.
Lemma owed_rem_thread : forall s t id, hands s -> one_list s -> owed_rem s id -> owed_rem (thread s t) id \/ tried id (thread s t).
Proof.
  intros s t id Hh Hone (r & A & B & C). unfold thread. destruct (s_ph s) eqn:Ep; try (left; exists r; repeat split; assumption).
  - unfold thread_top. destruct (negb (s_work s)); [destruct (s_stop s); left; exists r; auto|].
    destruct (s_ev s); [|left; exists r; auto].
    destruct (find (due (s_now s)) (s_rem s)) as [r0|] eqn:Ef.
    + destruct (Nat.eq_dec id (r_id r0)) as [-> | n].
      * right. unfold tried. cbn. apply in_or_app. right. left. reflexivity.
      * left. exists r. split; [|auto]. cbn. unfold take. apply in_map_iff. exists r. split; auto. unfold is_rem.
        destruct (Nat.eqb_spec (r_id r) (r_id r0)); congruence.
    + destruct (if s_workx s then _ else _); left; exists r; auto.
  - destruct (Nat.eq_dec id id0) as [-> | n].
    + exfalso. destruct Hh as [H1 _]. destruct (H1 id0 Ep) as (q & Q1 & Q2 & Q3).
      assert (r = q).
      { destruct Hone as (Hn & _). unfold rem_ids in Hn. clear - Hn A Q1 B Q2.
        induction (s_rem s) as [|a l IH]; [destruct A|]. cbn in Hn. inversion Hn as [|? ? Hx Hy]; subst.
        destruct A as [-> | A], Q1 as [-> | Q1]; auto.
        - exfalso. apply Hx. rewrite <- Q2. apply in_map; auto.
        - exfalso. apply Hx. rewrite Q2. apply in_map; auto. }
      subst q. unfold due, flagged in C. rewrite Q3 in C. discriminate C.
    + left. destruct t; exists r; (split; [|split; assumption]); cbn.
      * unfold set_by. apply in_map_iff. exists r. split; auto. unfold is_rem. destruct (Nat.eqb_spec (r_id r) id0); congruence.
      * apply drop_rem_in. split; congruence.
Qed.
Definition owed_exam (s : state) (id : nat) : Prop :=
  s_ph s = Examining id \/ exists h, In h (s_held s) /\ h_id h = id /\ h_exam h = true.
Lemma owed_exam_thread : forall s t id, owed_exam s id -> owed_exam (thread s t) id \/ examined id (thread s t).
Proof.
  intros s t id [Hp | (h & A & B & C)].
  - right. unfold thread. rewrite Hp. unfold examined. cbn. apply in_or_app. right. left. reflexivity.
  - unfold thread. destruct (s_ph s) eqn:Ep; try (left; right; exists h; repeat split; assumption).
    + unfold thread_top. destruct (negb (s_work s)); [destruct (s_stop s); left; right; exists h; auto|].
      destruct (s_ev s); [|left; right; exists h; auto].
      destruct (find (due (s_now s)) (s_rem s)); [left; right; exists h; auto|].
      destruct (s_workx s).
      * destruct (find h_exam (s_held s)) as [h0|] eqn:Eh.
        -- destruct (Nat.eq_dec id (h_id h0)) as [-> | n]; [left; left; reflexivity|]. left. right. exists h. split; [|auto]. cbn.
           unfold exam_off. apply in_map_iff. exists h. split; auto. unfold is_id. destruct (Nat.eqb_spec (h_id h) (h_id h0)); congruence.
        -- pose proof (find_none _ _ Eh h A). congruence.
      * left; right; exists h; auto.
    + destruct t; left; right; exists h; auto.
Qed.

Lemma now_thread : forall s t, s_now (thread s t) = s_now s.
Proof.
  intros s t. unfold thread. destruct (s_ph s); auto; [|destruct t; auto].
  unfold thread_top. destruct (negb (s_work s)); [destruct (s_stop s); auto|]. destruct (s_ev s); auto.
  destruct (find _ (s_rem s)); auto. destruct (if s_workx s then _ else _); auto.
Qed.

(* the thread sleeps or has ended *)
Definition rests (s : state) : Prop := (s_ph s = Top \/ s_ph s = Exited) /\ s_work s = false.
Lemma rests_thread : forall s t, rests s -> rests (thread s t) /\ s_rem (thread s t) = s_rem s /\ s_ev (thread s t) = s_ev s /\ s_held (thread s t) = s_held s.
Proof.
  intros s t [[Hp | Hp] Hw]; unfold thread, rests; rewrite Hp.
  - unfold thread_top. rewrite Hw. cbn. destruct (s_stop s); cbn; auto 6.
  - auto 6.
Qed.
Lemma rests_threads : forall ts s, rests s -> rests (run s (threads ts)).
Proof. induction ts as [|t ts IH]; intros s H; cbn; auto. apply IH. apply rests_thread; auto. Qed.

Lemma drain : forall ts s, later s -> s_ph s <> Exited -> load s <= length ts -> rests (run s (threads ts)).
Proof.
  induction ts as [|t ts IH]; intros s Hl Hx Hn.
  - cbn in *. unfold load in Hn. split; [|destruct (s_work s); auto; lia]. destruct (s_ph s); auto; lia.
  - cbn. destruct (s_work s) eqn:Ew; [|destruct (s_ph s) eqn:Ep].
    + apply IH; [apply later_thread; auto| |pose proof (load_thread s t Hl Hx (or_introl Ew)); cbn [length] in Hn; lia].
      unfold thread. destruct (s_ph s) eqn:Ep; cbn; try discriminate; try contradiction; [|destruct t; discriminate].
      unfold thread_top. rewrite Ew. cbn. destruct (s_ev s); [|discriminate]. destruct (find _ (s_rem s)); [discriminate|].
      destruct (if s_workx s then _ else _); cbn; congruence.
    + apply (rests_threads ts). apply (rests_thread s t). split; auto.
    + apply IH; [apply later_thread; auto| |]; [unfold thread; rewrite Ep; discriminate|].
      assert (load (thread s t) < load s) by (apply load_thread; auto; rewrite ?Ep; try discriminate; right; discriminate). cbn [length] in Hn; lia.
    + apply IH; [apply later_thread; auto| |]; [unfold thread; rewrite Ep; destruct t; discriminate|].
      assert (load (thread s t) < load s) by (apply load_thread; auto; rewrite ?Ep; try discriminate; right; discriminate). cbn [length] in Hn; lia.
    + apply IH; [apply later_thread; auto| |]; [unfold thread; rewrite Ep; discriminate|].
      assert (load (thread s t) < load s) by (apply load_thread; auto; rewrite ?Ep; try discriminate; right; discriminate). cbn [length] in Hn; lia.
    + contradiction.
Qed.

Lemma log_threads : forall ts s x, In x (s_log s) -> In x (s_log (run s (threads ts))).
Proof. induction ts as [|u ts IH]; intros s x G; [exact G|]. apply (IH (thread s u)). apply log_thread; auto. Qed.
Lemma owed_rem_run : forall ts s id, hands s -> one_list s -> owed_rem s id ->
  owed_rem (run s (threads ts)) id \/ tried id (run s (threads ts)).
Proof.
  induction ts as [|t ts IH]; intros s id H1 H2 H; cbn; auto.
  destruct (owed_rem_thread s t id H1 H2 H) as [G | G].
  - apply IH; auto; [apply (hands_step s (OThread t)); auto|apply (one_list_step s (OThread t)); auto].
  - right. apply log_threads; exact G.
Qed.
Lemma owed_exam_run : forall ts s id, owed_exam s id -> owed_exam (run s (threads ts)) id \/ examined id (run s (threads ts)).
Proof.
  induction ts as [|t ts IH]; intros s id H; cbn; auto.
  destruct (owed_exam_thread s t id H) as [G | G]; [apply IH; exact G|].
  right. apply log_threads; exact G.
Qed.
Lemma now_threads : forall ts s, s_now (run s (threads ts)) = s_now s.
Proof. induction ts as [|t ts IH]; intros s; [reflexivity|]. change (run s (threads (t :: ts))) with (run (thread s t) (threads ts)). rewrite IH. apply now_thread. Qed.

(* when it sleeps nothing is due *)
Definition clean (s : state) : Prop := s_work s = false -> forall r, In r (s_rem s) -> due (s_now s) r = false.
Lemma clean_thread : forall s t, later s -> clean s -> clean (thread s t).
Proof.
  intros s t [Hio Hl] H. unfold clean in *. rewrite now_thread. unfold thread. destruct (s_ph s) eqn:Ep; try exact H.
  - unfold thread_top. destruct (negb (s_work s)) eqn:En; [destruct (s_stop s); exact H|]. apply negb_false_iff in En.
    destruct (s_ev s); [|exact H]. destruct (find (due (s_now s)) (s_rem s)) as [r0|] eqn:Ef.
    + cbn. intros Hw. congruence.
    + destruct (if s_workx s then _ else _); [exact H|]. intros _ r Hr. apply (find_none _ _ Ef). exact Hr.
  - destruct t; intros Hw r Hr; cbn in Hw, Hr.
    + apply set_by_in in Hr as (q & A & B & [[C D] | [C D]]); subst r; [|auto]. unfold due, flagged. cbn.
      apply Nat.leb_gt. apply (Hl id eq_refl q A C).
    + apply drop_rem_in in Hr as [Hr _]. auto.
Qed.
Lemma clean_threads : forall ts s, later s -> clean s -> clean (run s (threads ts)).
Proof.
  induction ts as [|t ts IH]; intros s Hl H; [exact H|]. apply (IH (thread s t)); [apply later_thread|apply clean_thread]; auto.
Qed.
Lemma clean_wake : forall s, clean (step s OWake).
Proof.
  intros s. cbn [step]. destruct (s_rem s) eqn:Er; [intros _ r Hr; rewrite Er in Hr; destruct Hr|].
  destruct (s_work s) eqn:Ew; [intros H; congruence|]. cbn. intros H. discriminate H.
Qed.
Lemma threads_no_adopt : forall ts, forallb (fun o => negb (adopts o)) (threads ts) = true.
Proof. induction ts; auto. Qed.
Lemma events_threads : forall l, events (threads l) = [].
Proof. induction l; auto. Qed.
Lemma events_app : forall a b, events (a ++ b) = events a ++ events b.
Proof. induction a as [|o a IH]; intros b; auto. cbn [app]. rewrite events_cons, (events_cons o a), IH, app_assoc. reflexivity. Qed.
