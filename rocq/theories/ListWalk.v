(* The three ways of walking a list. *)
Require Import List ZArith Lia Bool.
From Verif Require Import ListH ListHLemmas.
Import ListNotations.
Open Scope Z_scope.

Lemma first_neq_head : forall m h x l, is_list m h (x :: l) -> (x =? h) = false.
Proof.
  intros m h x l [Hnd _]. apply Z.eqb_neq. intros ->.
  inversion Hnd as [|? ? Hni _]; subst. apply Hni; left; reflexivity.
Qed.
Lemma entry_neq_head : forall m h d x r, is_list m h (d ++ x :: r) -> (x =? h) = false.
Proof.
  intros m h d x r [Hnd _]. apply Z.eqb_neq. intros ->.
  inversion Hnd as [|? ? Hni _]; subst. apply Hni. apply in_or_app; right; left; reflexivity.
Qed.

Definition next_of (h : Z) (r : list Z) : Z := match r with [] => h | y :: _ => y end.
Lemma next_of_split : forall h r, exists B, r ++ [h] = next_of h r :: B.
Proof. intros h [|y r]; [exists []|exists (r ++ [h])]; reflexivity. Qed.

Lemma next_entry : forall m h d x r, is_list m h (d ++ x :: r) -> ld_next m x = Some (next_of h r).
Proof.
  intros m h d x r Hl. destruct (split_last h d) as [A [p EA]].
  destruct (next_of_split h r) as [B EB].
  destruct (neighbours _ _ _ _ _ _ _ _ _ Hl EA EB) as [_ [_ [H _]]]. exact H.
Qed.
Lemma next_head : forall m h l, is_list m h l -> ld_next m h = Some (next_of h l).
Proof.
  intros m h l Hl. destruct (next_of_split h l) as [B EB].
  exact (proj1 (head_next _ _ _ _ _ Hl EB)).
Qed.
Lemma prev_entry : forall m h d x r, is_list m h (d ++ x :: r) ->
  ld_prev m x = Some (next_of h (rev d)).
Proof.
  intros m h d x r Hl. destruct (next_of_split h r) as [B EB].
  destruct d as [|y d] using rev_ind.
  - destruct (neighbours m h [] x r [] h _ B Hl eq_refl EB) as [H _]. exact H.
  - destruct (neighbours m h (d ++ [y]) x r (h :: d) y _ B Hl eq_refl EB) as [H _].
    rewrite rev_app_distr. exact H.
Qed.
Lemma prev_head : forall m h l, is_list m h l -> ld_prev m h = Some (next_of h (rev l)).
Proof.
  intros m h l Hl. destruct l as [|y l] using rev_ind.
  - exact (proj1 (head_prev m h [] [] h Hl eq_refl)).
  - rewrite rev_app_distr. exact (proj1 (head_prev m h (l ++ [y]) (h :: l) y Hl eq_refl)).
Qed.

(* Specification of a loop which only looks: visit the entries in turn,
   updating the state with f, until stop says so. *)
Fixpoint visit {S} (f : S -> Z -> S) (stop : S -> Z -> bool) (s : S) (l : list Z) : S * loop_end :=
  match l with
  | [] => (s, Done)
  | x :: r => if stop s x then (f s x, Left) else visit f stop (f s x) r
  end.

  Lemma for_each_from_spec : forall {S} (b : body S) (f : S -> Z -> S) (stop : S -> Z -> bool) m h, forall r d s fuel,
    is_list m h (d ++ r) -> (length r < fuel)%nat ->
    (forall s x, In x r -> b m s x = Some (m, f s x, stop s x)) ->
    for_each_from fuel b m s (next_of h r) h =
      Some (m, fst (visit f stop s r), snd (visit f stop s r)).
  Proof.
    intros S b f stop m h. induction r as [|x r IH]; intros d s fuel Hl Hf Hb; destruct fuel as [|fuel]; cbn in Hf; try lia.
    - cbn. rewrite Z.eqb_refl. reflexivity.
    - cbn [for_each_from next_of visit]. rewrite (entry_neq_head _ _ _ _ _ Hl), Hb by (left; reflexivity).
      destruct (stop s x); [reflexivity|].
      rewrite (next_entry _ _ _ _ _ Hl). cbn [bnd].
      apply (IH (d ++ [x])); [rewrite <- app_assoc; exact Hl|lia|].
      intros s' y Hy; apply Hb; right; exact Hy.
  Qed.

  Lemma for_each_spec : forall {S} (b : body S) (f : S -> Z -> S) (stop : S -> Z -> bool) m h, forall l s fuel,
    is_list m h l -> (length l < fuel)%nat ->
    (forall s x, In x l -> b m s x = Some (m, f s x, stop s x)) ->
    for_each fuel b m s h = Some (m, fst (visit f stop s l), snd (visit f stop s l)).
  Proof.
    intros S b f stop m h l s fuel Hl Hf Hb. unfold for_each. rewrite (next_head _ _ _ Hl). cbn [bnd].
    apply (for_each_from_spec b f stop m h l []); assumption.
  Qed.

  Lemma for_each_rev_from_spec : forall {S} (b : body S) (f : S -> Z -> S) (stop : S -> Z -> bool) m h, forall d r s fuel,
    is_list m h (d ++ r) -> (length d < fuel)%nat ->
    (forall s x, In x d -> b m s x = Some (m, f s x, stop s x)) ->
    for_each_rev_from fuel b m s (next_of h (rev d)) h =
      Some (m, fst (visit f stop s (rev d)), snd (visit f stop s (rev d))).
  Proof.
    intros S b f stop m h. induction d as [|x d IH] using rev_ind; intros r s fuel Hl Hf Hb;
      destruct fuel as [|fuel]; rewrite ?app_length in Hf; cbn in Hf; try lia.
    - cbn. rewrite Z.eqb_refl. reflexivity.
    - rewrite rev_app_distr. cbn [rev app]. cbn [for_each_rev_from next_of visit].
      rewrite <- app_assoc in Hl. cbn [app] in Hl.
      rewrite (entry_neq_head _ _ _ _ _ Hl), Hb by (apply in_or_app; right; left; reflexivity).
      destruct (stop s x); [reflexivity|].
      rewrite (prev_entry _ _ _ _ _ Hl). cbn [bnd].
      apply (IH (x :: r)); [exact Hl|lia|].
      intros s' y Hy; apply Hb; apply in_or_app; left; exact Hy.
  Qed.

  Lemma for_each_rev_spec : forall {S} (b : body S) (f : S -> Z -> S) (stop : S -> Z -> bool) m h, forall l s fuel,
    is_list m h l -> (length l < fuel)%nat ->
    (forall s x, In x l -> b m s x = Some (m, f s x, stop s x)) ->
    for_each_rev fuel b m s h = Some (m, fst (visit f stop s (rev l)), snd (visit f stop s (rev l))).
  Proof.
    intros S b f stop m h l s fuel Hl Hf Hb. unfold for_each_rev. rewrite (prev_head _ _ _ Hl). cbn [bnd].
    apply (for_each_rev_from_spec b f stop m h l []); rewrite ?app_nil_r; assumption.
  Qed.

(* What a body does with the entry it is given, in a walk that may change the
   list: leave it, take it off and free it, or move it to another list. *)
Inductive act := Keep | Drop | Move.
Definition kept1 (a : act) (x : Z) : list Z := match a with Keep => [x] | _ => [] end.
Definition moved1 (a : act) (x : Z) : list Z := match a with Move => [x] | _ => [] end.

(* the whole walk: final state, entries kept, and the other list, moved
   entries going to its front one after another *)
Fixpoint acts {S} (dec : S -> Z -> S * act) (s : S) (l k : list Z) : S * list Z * list Z :=
  match l with
  | [] => (s, [], k)
  | x :: r =>
    let '(s1, a) := dec s x in
    let '(s2, kept, k2) := acts dec s1 r (moved1 a x ++ k) in
    (s2, kept1 a x ++ kept, k2)
  end.

Fixpoint dropped {S} (dec : S -> Z -> S * act) (s : S) (l o : list Z) : list Z :=
  match l with
  | [] => o
  | x :: r => dropped dec (fst (dec s x)) r (match snd (dec s x) with Drop => x :: o | _ => o end)
  end.

(* P m l k o holds of the memory, the list walked, the other list and the
   entries freed so far, and each iteration keeps it *)
Definition walk_inv {S} (b : body S) (dec : S -> Z -> S * act) (h : Z)
    (P : mem -> list Z -> list Z -> list Z -> Prop) : Prop :=
  (forall m l k o, P m l k o -> is_list m h l) /\
  (forall m s d x r k o, P m (d ++ x :: r) k o ->
    exists m1, b m s x = Some (m1, fst (dec s x), false) /\
      P m1 (d ++ kept1 (snd (dec s x)) x ++ r) (moved1 (snd (dec s x)) x ++ k)
        (match snd (dec s x) with Drop => x :: o | _ => o end)).

  Lemma for_each_safe_from_spec : forall {S} (b : body S) (dec : S -> Z -> S * act) h P, walk_inv b dec h P -> forall r d k o m s n fuel,
    P m (d ++ r) k o -> (length r < fuel)%nat ->
    (match r with x :: r' => n = next_of h r' | [] => True end) ->
    exists m', for_each_safe_from fuel b m s (next_of h r) n h =
        Some (m', fst (fst (acts dec s r k)), Done) /\
      P m' (d ++ snd (fst (acts dec s r k))) (snd (acts dec s r k)) (dropped dec s r o).
  Proof.
    intros S b dec h P [P_list P_step]. induction r as [|x r IH]; intros d k o m s n fuel HP Hf Hn; destruct fuel as [|fuel]; cbn in Hf; try lia.
    - exists m. cbn. rewrite Z.eqb_refl. split; [reflexivity|exact HP].
    - cbn [for_each_safe_from]. change (next_of h (x :: r)) with x.
      rewrite (entry_neq_head _ _ _ _ _ (P_list _ _ _ _ HP)).
      destruct (P_step m s d x r k o HP) as [m1 [E1 HP1]]. rewrite E1. subst n.
      set (a := snd (dec s x)) in *. set (s1 := fst (dec s x)) in *.
      assert (Ha : acts dec s (x :: r) k =
                let '(s2, kept, k2) := acts dec s1 r (moved1 a x ++ k) in
                (s2, kept1 a x ++ kept, k2)).
      { cbn [acts]. unfold s1, a. destruct (dec s x); reflexivity. }
      rewrite app_assoc in HP1.
      assert (Hnx : exists n', ld_next m1 (next_of h r) = Some n' /\
                match r with y :: r' => n' = next_of h r' | [] => True end).
      { pose proof (P_list _ _ _ _ HP1) as Hl1. destruct r as [|y r]; cbn [next_of].
        - eexists; split; [exact (next_head _ _ _ Hl1)|exact I].
        - eexists; split; [exact (next_entry _ _ _ _ _ Hl1)|reflexivity]. }
      destruct Hnx as [n' [En Hn']]. rewrite En. cbn [bnd].
      destruct (IH (d ++ kept1 a x) (moved1 a x ++ k) _ m1 s1 n' fuel HP1 ltac:(lia) Hn') as [m' [E HP']].
      exists m'. rewrite Ha. cbn [dropped]. fold s1 a.
      destruct (acts dec s1 r (moved1 a x ++ k)) as [[s2 kept] k2]. cbn [fst snd] in E, HP' |- *.
      split; [exact E|]. rewrite app_assoc. exact HP'.
  Qed.

  Lemma for_each_safe_spec : forall {S} (b : body S) (dec : S -> Z -> S * act) h P, walk_inv b dec h P -> forall l k m s fuel,
    P m l k [] -> (length l < fuel)%nat ->
    exists m', for_each_safe fuel b m s h = Some (m', fst (fst (acts dec s l k)), Done) /\
      P m' (snd (fst (acts dec s l k))) (snd (acts dec s l k)) (dropped dec s l []).
  Proof.
    intros S b dec h P HI l k m s fuel HP Hf. pose proof (proj1 HI) as P_list. unfold for_each_safe.
    pose proof (P_list _ _ _ _ HP) as Hl. rewrite (next_head _ _ _ Hl). cbn [bnd].
    assert (Hnx : exists n', ld_next m (next_of h l) = Some n' /\
              match l with y :: r' => n' = next_of h r' | [] => True end).
    { destruct l as [|y r]; cbn [next_of].
      - eexists; split; [exact (next_head _ _ _ Hl)|exact I].
      - eexists; split; [exact (next_entry _ _ [] _ _ Hl)|reflexivity]. }
    destruct Hnx as [n' [En Hn']]. rewrite En. cbn [bnd].
    exact (for_each_safe_from_spec b dec h P HI l [] k [] m s n' fuel HP Hf Hn').
  Qed.
