(* What a well formed list is, and what each operation of list.h does to it. *)
Require Import List ZArith Lia Bool.
From Verif Require Import ListH.
Import ListNotations.
Open Scope Z_scope.

(* Specification: neighbours in c point at each other. *)
Fixpoint linked (m : mem) (c : list Z) : Prop :=
  match c with
  | u :: ((v :: _) as r) => ld_next m u = Some v /\ ld_prev m v = Some u /\ linked m r
  | _ => True
  end.

(* h is the head of a list holding exactly the entries l, in this order:
   starting at h, the entries of l and h again are linked both ways. *)
Definition is_list (m : mem) (h : Z) (l : list Z) : Prop :=
  NoDup (h :: l) /\ linked m (h :: l ++ [h]).

Definition alloc (m : mem) (p : Z) : Prop := m p <> None.
Definition same_alloc (m m' : mem) : Prop := forall q, m' q = None <-> m q = None.
(* m' differs from m at most in the nodes of l *)
Definition only_changes (m m' : mem) (l : list Z) : Prop :=
  forall q, ~ In q l -> m' q = m q.

Lemma linked_app : forall m a u b,
  linked m (a ++ u :: b) <-> linked m (a ++ [u]) /\ linked m (u :: b).
Proof.
  intros m a; induction a as [|y a IH]; intros u b.
  - cbn [app]. cbn [linked]. tauto.
  - destruct a as [|z a].
    + cbn [app linked]. tauto.
    + cbn [app] in IH |- *. cbn [linked].
      specialize (IH u b). cbn [linked] in IH. tauto.
Qed.

Lemma linked_ext : forall m m' c,
  (forall q, In q (removelast c) -> ld_next m' q = ld_next m q) ->
  (forall q, In q (tl c) -> ld_prev m' q = ld_prev m q) ->
  linked m c -> linked m' c.
Proof.
  intros m m' c; induction c as [|u c IH]; intros Hn Hp Hl; [exact I|].
  destruct c as [|v r]; [exact I|].
  destruct Hl as [H1 [H2 H3]].
  cbn [linked]; split; [|split].
  - rewrite Hn; [exact H1|]. left; reflexivity.
  - rewrite Hp; [exact H2|]. left; reflexivity.
  - apply IH; [| |exact H3].
    + intros q Hq; apply Hn. right; exact Hq.
    + intros q Hq; apply Hp. right; exact Hq.
Qed.

Lemma linked_alloc : forall m c q, linked m c -> In q c -> (2 <= length c)%nat -> alloc m q.
Proof.
  intros m c; induction c as [|u c IH]; intros q Hl Hin Hlen; [destruct Hin|].
  destruct c as [|v r]; [cbn in Hlen; lia|].
  destruct Hl as [H1 [H2 H3]].
  destruct Hin as [<-|Hin].
  - intros E. unfold ld_next in H1. rewrite E in H1. discriminate.
  - destruct Hin as [<-|Hin].
    + intros E. unfold ld_prev in H2. rewrite E in H2. discriminate.
    + apply IH; [exact H3|right; exact Hin|].
      destruct r; [destruct Hin|cbn; lia].
Qed.

Lemma is_list_alloc : forall m h l q, is_list m h l -> In q (h :: l) -> alloc m q.
Proof.
  intros m h l q [_ Hl] Hin. apply (linked_alloc m (h :: l ++ [h])); [exact Hl| |].
  - destruct Hin as [<-|Hin]; [left; reflexivity|right; apply in_or_app; left; exact Hin].
  - cbn [length]. rewrite app_length. cbn. lia.
Qed.

Lemma is_list_nodup : forall m h l, is_list m h l -> NoDup (h :: l).
Proof. intros m h l [H _]; exact H. Qed.

Lemma cell_eq : forall (m m' : mem) q,
  ld_next m' q = ld_next m q -> ld_prev m' q = ld_prev m q -> m' q = m q.
Proof.
  intros m m' q; unfold ld_next, ld_prev.
  destruct (m q) as [[a b]|], (m' q) as [[c d]|]; intros H1 H2; try congruence.
Qed.

Lemma ld_next_eq : forall (m m' : mem) q, m' q = m q -> ld_next m' q = ld_next m q.
Proof. intros m m' q H; unfold ld_next; rewrite H; reflexivity. Qed.
Lemma ld_prev_eq : forall (m m' : mem) q, m' q = m q -> ld_prev m' q = ld_prev m q.
Proof. intros m m' q H; unfold ld_prev; rewrite H; reflexivity. Qed.

Lemma is_list_frame : forall m m' h l,
  is_list m h l -> (forall q, In q (h :: l) -> m' q = m q) -> is_list m' h l.
Proof.
  intros m m' h l [Hn Hl] Hq; split; [exact Hn|].
  assert (Hin : forall q, In q (h :: l ++ [h]) -> m' q = m q).
  { intros q Hi; apply Hq. cbn [In] in Hi. rewrite in_app_iff in Hi; cbn in Hi |- *; tauto. }
  apply (linked_ext m m'); [| |exact Hl].
  - intros q Hi; apply ld_next_eq, Hin.
    assert (E : removelast (h :: l ++ [h]) = h :: l).
    { change (h :: l ++ [h]) with ((h :: l) ++ [h]). apply removelast_last. }
    rewrite E in Hi. destruct Hi as [<-|Hi]; [left; reflexivity|right; apply in_or_app; left; exact Hi].
  - intros q Hi; apply ld_prev_eq, Hin. right; exact Hi.
Qed.

Lemma nodup_left : forall (a b : list Z), NoDup (a ++ b) -> NoDup a.
Proof.
  induction a as [|x a IH]; intros b H; [constructor|].
  inversion H as [|? ? Hni Hnd]; subst. constructor; [|exact (IH _ Hnd)].
  intros Hi; apply Hni, in_or_app; left; exact Hi.
Qed.
Lemma nodup_right : forall (a b : list Z), NoDup (a ++ b) -> NoDup b.
Proof.
  induction a as [|x a IH]; intros b H; [exact H|]. inversion H; subst; apply IH; assumption.
Qed.

(* stores *)
Lemma st_next_spec : forall m p v, alloc m p ->
  exists m', st_next m p v = Some m' /\
    (forall q, ld_next m' q = if q =? p then Some v else ld_next m q) /\
    (forall q, ld_prev m' q = ld_prev m q) /\ same_alloc m m'.
Proof.
  intros m p v Ha. unfold alloc in Ha. unfold st_next.
  destruct (m p) as [[a b]|] eqn:E; [|congruence].
  eexists; split; [reflexivity|].
  unfold ld_next, ld_prev, same_alloc, upd.
  split; [|split]; intros q; destruct (Z.eqb_spec q p) as [->|Hne]; try reflexivity;
    rewrite ?E; try reflexivity; split; discriminate.
Qed.

Lemma st_prev_spec : forall m p v, alloc m p ->
  exists m', st_prev m p v = Some m' /\
    (forall q, ld_prev m' q = if q =? p then Some v else ld_prev m q) /\
    (forall q, ld_next m' q = ld_next m q) /\ same_alloc m m'.
Proof.
  intros m p v Ha. unfold alloc in Ha. unfold st_prev.
  destruct (m p) as [[a b]|] eqn:E; [|congruence].
  eexists; split; [reflexivity|].
  unfold ld_next, ld_prev, same_alloc, upd.
  split; [|split]; intros q; destruct (Z.eqb_spec q p) as [->|Hne]; try reflexivity;
    rewrite ?E; try reflexivity; split; discriminate.
Qed.

Lemma same_alloc_trans : forall a b c, same_alloc a b -> same_alloc b c -> same_alloc a c.
Proof. intros a b c H1 H2 q; rewrite (H2 q); apply H1. Qed.
Lemma same_alloc_alloc : forall a b q, same_alloc a b -> alloc a q -> alloc b q.
Proof. intros a b q H Ha E; apply Ha, H; exact E. Qed.

Lemma add_between_spec : forall m x p n, alloc m x -> alloc m p -> alloc m n -> x <> p -> x <> n ->
  exists m', list_add_between m x p n = Some m' /\
    (forall q, ld_next m' q = if q =? x then Some n else if q =? p then Some x else ld_next m q) /\
    (forall q, ld_prev m' q = if q =? x then Some p else if q =? n then Some x else ld_prev m q) /\
    same_alloc m m'.
Proof.
  intros m x p n Hx Hp Hn Hxp Hxn. unfold list_add_between.
  destruct (st_prev_spec m n x Hn) as [m1 [E1 [P1 [N1 A1]]]]. rewrite E1; cbn [bnd].
  destruct (st_next_spec m1 x n (same_alloc_alloc _ _ _ A1 Hx)) as [m2 [E2 [N2 [P2 A2]]]].
  rewrite E2; cbn [bnd].
  pose proof (same_alloc_trans _ _ _ A1 A2) as A12.
  destruct (st_prev_spec m2 x p (same_alloc_alloc _ _ _ A12 Hx)) as [m3 [E3 [P3 [N3 A3]]]].
  rewrite E3; cbn [bnd].
  pose proof (same_alloc_trans _ _ _ A12 A3) as A13.
  destruct (st_next_spec m3 p x (same_alloc_alloc _ _ _ A13 Hp)) as [m4 [E4 [N4 [P4 A4]]]].
  exists m4; split; [exact E4|].
  split; [|split].
  - intros q. rewrite N4, N3, N2, N1.
    destruct (Z.eqb_spec q x), (Z.eqb_spec q p); congruence.
  - intros q. rewrite P4, P3, P2, P1. reflexivity.
  - exact (same_alloc_trans _ _ _ A13 A4).
Qed.

Lemma del_between_spec : forall m p n, alloc m p -> alloc m n ->
  exists m', list_del_between m p n = Some m' /\
    (forall q, ld_next m' q = if q =? p then Some n else ld_next m q) /\
    (forall q, ld_prev m' q = if q =? n then Some p else ld_prev m q) /\
    same_alloc m m'.
Proof.
  intros m p n Hp Hn. unfold list_del_between.
  destruct (st_prev_spec m n p Hn) as [m1 [E1 [P1 [N1 A1]]]]. rewrite E1; cbn [bnd].
  destruct (st_next_spec m1 p n (same_alloc_alloc _ _ _ A1 Hp)) as [m2 [E2 [N2 [P2 A2]]]].
  exists m2; split; [exact E2|]. split; [|split].
  - intros q. rewrite N2, N1. reflexivity.
  - intros q. rewrite P2, P1. reflexivity.
  - exact (same_alloc_trans _ _ _ A1 A2).
Qed.

(* h :: l split at a place: its last entry and the first of what follows *)
Lemma split_last : forall (h : Z) l, exists A p, h :: l = A ++ [p].
Proof.
  intros h l. exists (removelast (h :: l)), (last (h :: l) h).
  apply app_removelast_last. discriminate.
Qed.
Lemma split_first : forall (l : list Z) h, exists n B, l ++ [h] = n :: B.
Proof. intros [|n l] h; [exists h, []|exists n, (l ++ [h])]; reflexivity. Qed.

Lemma tl_of_split : forall (h : Z) l A p, h :: l = A ++ [p] -> tl (A ++ [p]) = l.
Proof. intros h l A p E; rewrite <- E; reflexivity. Qed.
Lemma removelast_of_split : forall (h : Z) l n B, l ++ [h] = n :: B -> removelast (n :: B) = l.
Proof. intros h l n B E; rewrite <- E; apply removelast_last. Qed.

Lemma in_last_split : forall (h : Z) l A p, h :: l = A ++ [p] -> In p (h :: l).
Proof. intros h l A p E; rewrite E; apply in_or_app; right; left; reflexivity. Qed.
Lemma in_first_split : forall (h : Z) l n B, l ++ [h] = n :: B -> In n (h :: l).
Proof.
  intros h l n B E. destruct l as [|y l]; cbn in E; injection E as E1 E2; subst; cbn; tauto.
Qed.

Lemma nodup_last : forall (h : Z) l A p, NoDup (h :: l) -> h :: l = A ++ [p] -> ~ In p A.
Proof.
  intros h l A p Hn E. rewrite E in Hn. apply NoDup_remove_2 in Hn.
  rewrite app_nil_r in Hn. exact Hn.
Qed.
Lemma nodup_first : forall (h : Z) l n B, NoDup (h :: l) -> l ++ [h] = n :: B -> ~ In n B.
Proof.
  intros h l n B Hn E.
  assert (H : NoDup (l ++ [h])).
  { apply NoDup_Add with (a := h) (l := l); [|].
    - rewrite <- (app_nil_r l) at 1. apply Add_app.
    - inversion Hn; subst; split; assumption. }
  rewrite E in H. inversion H; assumption.
Qed.

(* inserting between the two halves *)
Lemma insert_spec : forall m h l1 l2 A p n B x,
  is_list m h (l1 ++ l2) -> h :: l1 = A ++ [p] -> l2 ++ [h] = n :: B ->
  ~ In x (h :: l1 ++ l2) -> alloc m x ->
  exists m', list_add_between m x p n = Some m' /\
    is_list m' h (l1 ++ x :: l2) /\ same_alloc m m' /\ only_changes m m' (x :: h :: l1 ++ l2).
Proof.
  intros m h l1 l2 A p n B x Hlist EA EB Hx Hax.
  pose proof (in_last_split _ _ _ _ EA) as Hpin. pose proof (in_first_split _ _ _ _ EB) as Hnin.
  assert (Hpin' : In p (h :: l1 ++ l2)) by (cbn in *; rewrite in_app_iff; tauto).
  assert (Hnin' : In n (h :: l1 ++ l2)) by (cbn in *; rewrite in_app_iff; tauto).
  assert (Hxp : x <> p) by (intros ->; auto). assert (Hxn : x <> n) by (intros ->; auto).
  destruct (add_between_spec m x p n Hax (is_list_alloc _ _ _ _ Hlist Hpin')
              (is_list_alloc _ _ _ _ Hlist Hnin') Hxp Hxn) as [m' [E [N [P Al]]]].
  exists m'; split; [exact E|]. destruct Hlist as [Hnd Hl].
  assert (Hnd1 : NoDup (h :: l1)).
  { inversion Hnd as [|? ? Hni Hnd']; subst. constructor.
    - intros Hi; apply Hni, in_or_app; left; exact Hi.
    - exact (nodup_left _ _ Hnd'). }
  assert (Hnd2 : NoDup (h :: l2)).
  { inversion Hnd as [|? ? Hni Hnd']; subst. constructor.
    - intros Hi; apply Hni, in_or_app; right; exact Hi.
    - exact (nodup_right _ _ Hnd'). }
  assert (Hdis : forall q, In q l1 -> ~ In q l2).
  { inversion Hnd as [|? ? _ Hnd']; subst. intros q H1 H2.
    apply in_split in H1; destruct H1 as [u [v ->]].
    rewrite <- app_assoc in Hnd'. cbn in Hnd'. apply NoDup_remove_2 in Hnd'.
    apply Hnd'. rewrite !in_app_iff; tauto. }
  assert (Hh1 : ~ In h l1) by (inversion Hnd1; assumption).
  assert (Hh2 : ~ In h l2) by (inversion Hnd2; assumption).
  (* n is not among the entries of l1, p not among those of l2 *)
  assert (Hn1 : ~ In n l1).
  { intros Hi. destruct Hnin as [<-|Hi2]; [exact (Hh1 Hi)|exact (Hdis _ Hi Hi2)]. }
  assert (Hp2 : ~ In p l2).
  { intros Hi. destruct Hpin as [<-|Hi2]; [exact (Hh2 Hi)|exact (Hdis _ Hi2 Hi)]. }
  assert (Ecyc : h :: (l1 ++ l2) ++ [h] = A ++ p :: n :: B).
  { rewrite <- app_assoc, EB. change (h :: l1 ++ n :: B) with ((h :: l1) ++ n :: B).
    rewrite EA, <- app_assoc. reflexivity. }
  rewrite Ecyc in Hl. apply linked_app in Hl. destruct Hl as [L1 L2].
  cbn [linked] in L2. destruct L2 as [_ [_ L2]].
  split; [split|split; [exact Al|]].
  - assert (Hadd : NoDup (x :: (h :: l1 ++ l2))) by (constructor; assumption).
    clear - Hadd. change (h :: l1 ++ x :: l2) with ((h :: l1) ++ x :: l2).
    apply NoDup_Add with (a := x) (l := (h :: l1) ++ l2); [apply Add_app|].
    inversion Hadd; subst; split; assumption.
  - assert (Ec : h :: (l1 ++ x :: l2) ++ [h] = A ++ p :: x :: n :: B).
    { rewrite <- app_assoc. cbn [app]. rewrite EB.
      change (h :: l1 ++ x :: n :: B) with ((h :: l1) ++ x :: n :: B).
      rewrite EA, <- app_assoc. reflexivity. }
    rewrite Ec. apply linked_app. split.
    + apply (linked_ext m m'); [| |exact L1].
      * intros q Hq. rewrite removelast_last in Hq. rewrite N.
        assert (Hqi : In q (h :: l1)) by (rewrite EA; apply in_or_app; left; exact Hq).
        destruct (Z.eqb_spec q x) as [->|_].
        { exfalso; apply Hx. cbn in *; rewrite in_app_iff; tauto. }
        destruct (Z.eqb_spec q p) as [->|_]; [|reflexivity].
        exfalso; exact (nodup_last _ _ _ _ Hnd1 EA Hq).
      * intros q Hq. rewrite (tl_of_split _ _ _ _ EA) in Hq. rewrite P.
        destruct (Z.eqb_spec q x) as [->|_].
        { exfalso; apply Hx. cbn; rewrite in_app_iff; tauto. }
        destruct (Z.eqb_spec q n) as [->|_]; [exfalso; exact (Hn1 Hq)|reflexivity].
    + assert (K : ld_next m' p = Some x /\ ld_prev m' x = Some p /\
                 ld_next m' x = Some n /\ ld_prev m' n = Some x).
      { rewrite !N, !P, !Z.eqb_refl.
        destruct (Z.eqb_spec p x) as [e|_]; [congruence|].
        destruct (Z.eqb_spec n x) as [e|_]; [congruence|]. repeat split. }
      destruct K as [K1 [K2 [K3 K4]]].
      split; [exact K1|split; [exact K2|split; [exact K3|split; [exact K4|]]]].
      change (linked m' (n :: B)).
      apply (linked_ext m m'); [| |exact L2].
      * intros q Hq. rewrite (removelast_of_split _ _ _ _ EB) in Hq. rewrite N.
        destruct (Z.eqb_spec q x) as [->|_].
        { exfalso; apply Hx. cbn; rewrite in_app_iff; tauto. }
        destruct (Z.eqb_spec q p) as [->|_]; [exfalso; exact (Hp2 Hq)|reflexivity].
      * intros q Hq. cbn [tl] in Hq. rewrite P.
        assert (Hqi : In q (l2 ++ [h])) by (rewrite EB; right; exact Hq).
        destruct (Z.eqb_spec q x) as [->|_].
        { exfalso; apply Hx. cbn in *; rewrite in_app_iff in *; cbn in *; tauto. }
        destruct (Z.eqb_spec q n) as [->|_]; [|reflexivity].
        exfalso; exact (nodup_first _ _ _ _ Hnd2 EB Hq).
  - intros q Hq. apply cell_eq.
    + rewrite N. destruct (Z.eqb_spec q x) as [->|_]; [exfalso; apply Hq; left; reflexivity|].
      destruct (Z.eqb_spec q p) as [->|_]; [exfalso; apply Hq; right; exact Hpin'|reflexivity].
    + rewrite P. destruct (Z.eqb_spec q x) as [->|_]; [exfalso; apply Hq; left; reflexivity|].
      destruct (Z.eqb_spec q n) as [->|_]; [exfalso; apply Hq; right; exact Hnin'|reflexivity].
Qed.

(* the neighbours of an entry *)
Lemma neighbours : forall m h l1 x l2 A p n B,
  is_list m h (l1 ++ x :: l2) -> h :: l1 = A ++ [p] -> l2 ++ [h] = n :: B ->
  ld_prev m x = Some p /\ ld_next m p = Some x /\ ld_next m x = Some n /\ ld_prev m n = Some x.
Proof.
  intros m h l1 x l2 A p n B [_ Hl] EA EB.
  assert (Ec : h :: (l1 ++ x :: l2) ++ [h] = A ++ p :: x :: n :: B).
  { rewrite <- app_assoc. cbn [app]. rewrite EB.
    change (h :: l1 ++ x :: n :: B) with ((h :: l1) ++ x :: n :: B).
    rewrite EA, <- app_assoc. reflexivity. }
  rewrite Ec in Hl. apply linked_app in Hl. destruct Hl as [_ Hl].
  cbn [linked] in Hl. tauto.
Qed.

(* unlinking an entry *)
Lemma unlink_spec : forall m h l1 x l2 A p n B,
  is_list m h (l1 ++ x :: l2) -> h :: l1 = A ++ [p] -> l2 ++ [h] = n :: B ->
  exists m', list_del_between m p n = Some m' /\
    is_list m' h (l1 ++ l2) /\ same_alloc m m' /\ m' x = m x /\
    only_changes m m' (h :: l1 ++ l2).
Proof.
  intros m h l1 x l2 A p n B Hlist EA EB.
  pose proof (in_last_split _ _ _ _ EA) as Hpin. pose proof (in_first_split _ _ _ _ EB) as Hnin.
  assert (Hpin' : In p (h :: l1 ++ x :: l2)) by (cbn in *; rewrite in_app_iff; tauto).
  assert (Hnin' : In n (h :: l1 ++ x :: l2)) by (cbn in *; rewrite in_app_iff; cbn; tauto).
  destruct (del_between_spec m p n (is_list_alloc _ _ _ _ Hlist Hpin')
              (is_list_alloc _ _ _ _ Hlist Hnin')) as [m' [E [N [P Al]]]].
  exists m'; split; [exact E|]. destruct Hlist as [Hnd0 Hl].
  change (h :: l1 ++ x :: l2) with ((h :: l1) ++ x :: l2) in Hnd0.
  pose proof (NoDup_remove_1 _ _ _ Hnd0) as Hnd. pose proof (NoDup_remove_2 _ _ _ Hnd0) as Hx.
  cbn [app] in Hnd, Hx. clear Hnd0.
  assert (Hnd1 : NoDup (h :: l1)).
  { inversion Hnd as [|? ? Hni Hnd']; subst. constructor.
    - intros Hi; apply Hni, in_or_app; left; exact Hi.
    - exact (nodup_left _ _ Hnd'). }
  assert (Hnd2 : NoDup (h :: l2)).
  { inversion Hnd as [|? ? Hni Hnd']; subst. constructor.
    - intros Hi; apply Hni, in_or_app; right; exact Hi.
    - exact (nodup_right _ _ Hnd'). }
  assert (Hdis : forall q, In q l1 -> ~ In q l2).
  { inversion Hnd as [|? ? _ Hnd']; subst. intros q H1 H2.
    apply in_split in H1; destruct H1 as [u [v ->]].
    rewrite <- app_assoc in Hnd'. cbn in Hnd'. apply NoDup_remove_2 in Hnd'.
    apply Hnd'. rewrite !in_app_iff; tauto. }
  assert (Hh1 : ~ In h l1) by (inversion Hnd1; assumption).
  assert (Hh2 : ~ In h l2) by (inversion Hnd2; assumption).
  assert (Hn1 : ~ In n l1).
  { intros Hi. destruct Hnin as [<-|Hi2]; [exact (Hh1 Hi)|exact (Hdis _ Hi Hi2)]. }
  assert (Hp2 : ~ In p l2).
  { intros Hi. destruct Hpin as [<-|Hi2]; [exact (Hh2 Hi)|exact (Hdis _ Hi2 Hi)]. }
  assert (Hpx : In p (h :: l1 ++ l2)) by (cbn in *; rewrite in_app_iff; tauto).
  assert (Hnx : In n (h :: l1 ++ l2)) by (cbn in *; rewrite in_app_iff; tauto).
  assert (Hother : only_changes m m' (h :: l1 ++ l2)).
  { intros q Hq. apply cell_eq.
    - rewrite N. destruct (Z.eqb_spec q p) as [->|_]; [exfalso; exact (Hq Hpx)|reflexivity].
    - rewrite P. destruct (Z.eqb_spec q n) as [->|_]; [exfalso; exact (Hq Hnx)|reflexivity]. }
  assert (Ec : h :: (l1 ++ x :: l2) ++ [h] = A ++ p :: x :: n :: B).
  { rewrite <- app_assoc. cbn [app]. rewrite EB.
    change (h :: l1 ++ x :: n :: B) with ((h :: l1) ++ x :: n :: B).
    rewrite EA, <- app_assoc. reflexivity. }
  rewrite Ec in Hl. apply linked_app in Hl. destruct Hl as [L1 L2].
  cbn [linked] in L2. destruct L2 as [_ [_ [_ [_ L2]]]].
  split; [split; [exact Hnd|]|split; [exact Al|split; [apply Hother; exact Hx|exact Hother]]].
  assert (Ecyc : h :: (l1 ++ l2) ++ [h] = A ++ p :: n :: B).
  { rewrite <- app_assoc, EB. change (h :: l1 ++ n :: B) with ((h :: l1) ++ n :: B).
    rewrite EA, <- app_assoc. reflexivity. }
  rewrite Ecyc. apply linked_app. split.
  - apply (linked_ext m m'); [| |exact L1].
    + intros q Hq. rewrite removelast_last in Hq. rewrite N.
      destruct (Z.eqb_spec q p) as [->|_]; [|reflexivity].
      exfalso; exact (nodup_last _ _ _ _ Hnd1 EA Hq).
    + intros q Hq. rewrite (tl_of_split _ _ _ _ EA) in Hq. rewrite P.
      destruct (Z.eqb_spec q n) as [->|_]; [exfalso; exact (Hn1 Hq)|reflexivity].
  - assert (K : ld_next m' p = Some n /\ ld_prev m' n = Some p).
    { rewrite N, P, !Z.eqb_refl. split; reflexivity. }
    destruct K as [K1 K2]. split; [exact K1|split; [exact K2|]].
    change (linked m' (n :: B)).
    apply (linked_ext m m'); [| |exact L2].
    + intros q Hq. rewrite (removelast_of_split _ _ _ _ EB) in Hq. rewrite N.
      destruct (Z.eqb_spec q p) as [->|_]; [exfalso; exact (Hp2 Hq)|reflexivity].
    + intros q Hq. cbn [tl] in Hq. rewrite P.
      destruct (Z.eqb_spec q n) as [->|_]; [|reflexivity].
      exfalso; exact (nodup_first _ _ _ _ Hnd2 EB Hq).
Qed.

(* the operations *)
Lemma list_init_spec : forall m h, alloc m h ->
  exists m', list_init m h = Some m' /\ is_list m' h [] /\ same_alloc m m' /\ only_changes m m' [h].
Proof.
  intros m h Ha. unfold list_init.
  destruct (st_next_spec m h h Ha) as [m1 [E1 [N1 [P1 A1]]]]. rewrite E1; cbn [bnd].
  destruct (st_prev_spec m1 h h (same_alloc_alloc _ _ _ A1 Ha)) as [m2 [E2 [P2 [N2 A2]]]].
  exists m2; split; [exact E2|]. split; [|split].
  - split; [repeat constructor; intros []|]. cbn [app linked].
    rewrite N2, N1, P2, Z.eqb_refl. repeat split.
  - exact (same_alloc_trans _ _ _ A1 A2).
  - intros q Hq. apply cell_eq.
    + rewrite N2, N1. destruct (Z.eqb_spec q h) as [->|_]; [exfalso; apply Hq; left; reflexivity|reflexivity].
    + rewrite P2, P1. destruct (Z.eqb_spec q h) as [->|_]; [exfalso; apply Hq; left; reflexivity|reflexivity].
Qed.

Lemma head_next : forall m h l n B, is_list m h l -> l ++ [h] = n :: B ->
  ld_next m h = Some n /\ ld_prev m n = Some h.
Proof.
  intros m h l n B [_ Hl] E. rewrite E in Hl. cbn [linked] in Hl. tauto.
Qed.
Lemma head_prev : forall m h l A p, is_list m h l -> h :: l = A ++ [p] ->
  ld_prev m h = Some p /\ ld_next m p = Some h.
Proof.
  intros m h l A p [_ Hl] E. change (h :: l ++ [h]) with ((h :: l) ++ [h]) in Hl.
  rewrite E, <- app_assoc in Hl. cbn [app] in Hl. apply linked_app in Hl.
  destruct Hl as [_ Hl]. cbn [linked] in Hl. tauto.
Qed.

Lemma list_add_spec : forall m h l x, is_list m h l -> ~ In x (h :: l) -> alloc m x ->
  exists m', list_add m x h = Some m' /\
    is_list m' h (x :: l) /\ same_alloc m m' /\ only_changes m m' (x :: h :: l).
Proof.
  intros m h l x Hl Hx Ha. unfold list_add.
  destruct (split_first l h) as [n [B EB]].
  destruct (head_next _ _ _ _ _ Hl EB) as [En _]. rewrite En; cbn [bnd].
  exact (insert_spec m h [] l [] h n B x Hl eq_refl EB Hx Ha).
Qed.

Lemma list_add_tail_spec : forall m h l x, is_list m h l -> ~ In x (h :: l) -> alloc m x ->
  exists m', list_add_tail m x h = Some m' /\
    is_list m' h (l ++ [x]) /\ same_alloc m m' /\ only_changes m m' (x :: h :: l).
Proof.
  intros m h l x Hl Hx Ha. unfold list_add_tail.
  destruct (split_last h l) as [A [p EA]].
  destruct (head_prev _ _ _ _ _ Hl EA) as [Ep _]. rewrite Ep; cbn [bnd].
  rewrite <- (app_nil_r l) in Hl, Hx.
  destruct (insert_spec m h l [] A p h [] x Hl EA eq_refl Hx Ha) as [m' H].
  rewrite (app_nil_r l) in H. exists m'; exact H.
Qed.

Lemma list_del_spec : forall m h l1 x l2, is_list m h (l1 ++ x :: l2) ->
  exists m', list_del m x = Some m' /\
    is_list m' h (l1 ++ l2) /\ same_alloc m m' /\
    m' x = Some (POISON1, POISON2) /\ only_changes m m' (x :: h :: l1 ++ l2).
Proof.
  intros m h l1 x l2 Hl. unfold list_del.
  destruct (split_last h l1) as [A [p EA]]. destruct (split_first l2 h) as [n [B EB]].
  destruct (neighbours _ _ _ _ _ _ _ _ _ Hl EA EB) as [Ep [_ [En _]]].
  rewrite Ep, En; cbn [bnd].
  destruct (unlink_spec _ _ _ _ _ _ _ _ _ Hl EA EB) as [m1 [E1 [L1 [A1 [X1 O1]]]]].
  rewrite E1; cbn [bnd].
  assert (Hax : alloc m x).
  { apply (is_list_alloc _ _ _ _ Hl). right. apply in_or_app; right; left; reflexivity. }
  destruct (st_next_spec m1 x POISON1 (same_alloc_alloc _ _ _ A1 Hax)) as [m2 [E2 [N2 [P2 A2]]]].
  rewrite E2; cbn [bnd].
  pose proof (same_alloc_trans _ _ _ A1 A2) as A12.
  destruct (st_prev_spec m2 x POISON2 (same_alloc_alloc _ _ _ A12 Hax)) as [m3 [E3 [P3 [N3 A3]]]].
  exists m3; split; [exact E3|].
  assert (Hsame : forall q, q <> x -> m3 q = m1 q).
  { intros q Hq. apply cell_eq.
    - rewrite N3, N2. destruct (Z.eqb_spec q x); [contradiction|reflexivity].
    - rewrite P3, P2. destruct (Z.eqb_spec q x); [contradiction|reflexivity]. }
  assert (Hxn : ~ In x (h :: l1 ++ l2)).
  { destruct Hl as [Hnd _]. change (h :: l1 ++ x :: l2) with ((h :: l1) ++ x :: l2) in Hnd.
    exact (NoDup_remove_2 _ _ _ Hnd). }
  split; [|split; [|split]].
  - apply (is_list_frame m1); [exact L1|]. intros q Hq. apply Hsame. intros ->. exact (Hxn Hq).
  - exact (same_alloc_trans _ _ _ A12 A3).
  - pose proof (N3 x) as HN. rewrite N2, Z.eqb_refl in HN.
    pose proof (P3 x) as HP. rewrite Z.eqb_refl in HP.
    unfold ld_next in HN. unfold ld_prev in HP. destruct (m3 x) as [[a b]|]; congruence.
  - intros q Hq. rewrite Hsame; [|intros ->; apply Hq; left; reflexivity].
    apply O1. intros Hi; apply Hq; right; exact Hi.
Qed.

Lemma list_move_spec : forall m h l1 x l2 h2 k,
  is_list m h (l1 ++ x :: l2) -> is_list m h2 k ->
  (forall q, In q (h :: l1 ++ x :: l2) -> ~ In q (h2 :: k)) ->
  exists m', list_move m x h2 = Some m' /\
    is_list m' h (l1 ++ l2) /\ is_list m' h2 (x :: k) /\ same_alloc m m' /\
    only_changes m m' (h :: l1 ++ x :: l2 ++ h2 :: k).
Proof.
  intros m h l1 x l2 h2 k Hl Hk Hdis. unfold list_move.
  destruct (split_last h l1) as [A [p EA]]. destruct (split_first l2 h) as [n [B EB]].
  destruct (neighbours _ _ _ _ _ _ _ _ _ Hl EA EB) as [Ep [_ [En _]]].
  rewrite Ep, En; cbn [bnd].
  destruct (unlink_spec _ _ _ _ _ _ _ _ _ Hl EA EB) as [m1 [E1 [L1 [A1 [X1 O1]]]]].
  rewrite E1; cbn [bnd].
  assert (Hxin : In x (h :: l1 ++ x :: l2)) by (right; apply in_or_app; right; left; reflexivity).
  assert (Hax : alloc m x) by exact (is_list_alloc _ _ _ _ Hl Hxin).
  assert (Hsub : forall q, In q (h :: l1 ++ l2) -> In q (h :: l1 ++ x :: l2)).
  { intros q; cbn; rewrite !in_app_iff; cbn; tauto. }
  assert (Hk1 : is_list m1 h2 k).
  { apply (is_list_frame m); [exact Hk|]. intros q Hq. apply O1.
    intros Hi. exact (Hdis _ (Hsub _ Hi) Hq). }
  destruct (list_add_spec m1 h2 k x Hk1 (Hdis _ Hxin) (same_alloc_alloc _ _ _ A1 Hax))
    as [m2 [E2 [L2 [A2 O2]]]].
  exists m2; split; [exact E2|].
  assert (Hxn : ~ In x (h :: l1 ++ l2)).
  { destruct Hl as [Hnd _]. change (h :: l1 ++ x :: l2) with ((h :: l1) ++ x :: l2) in Hnd.
    exact (NoDup_remove_2 _ _ _ Hnd). }
  split; [|split; [exact L2|split; [exact (same_alloc_trans _ _ _ A1 A2)|]]].
  - apply (is_list_frame m1); [exact L1|]. intros q Hq. apply O2. intros [<-|Hi].
    + exact (Hxn Hq).
    + exact (Hdis _ (Hsub _ Hq) Hi).
  - intros q Hq. rewrite O2.
    + apply O1. intros Hi. apply Hq. cbn in *. rewrite !in_app_iff in *. cbn.
      rewrite in_app_iff. tauto.
    + intros Hi. apply Hq. cbn in *. rewrite !in_app_iff in *. cbn.
      rewrite in_app_iff. cbn. tauto.
Qed.

(* moving to the front of the same list *)
Lemma list_move_same_spec : forall m h l1 x l2,
  is_list m h (l1 ++ x :: l2) ->
  exists m', list_move m x h = Some m' /\
    is_list m' h (x :: l1 ++ l2) /\ same_alloc m m' /\
    only_changes m m' (h :: l1 ++ x :: l2).
Proof.
  intros m h l1 x l2 Hl. unfold list_move.
  destruct (split_last h l1) as [A [p EA]]. destruct (split_first l2 h) as [n [B EB]].
  destruct (neighbours _ _ _ _ _ _ _ _ _ Hl EA EB) as [Ep [_ [En _]]].
  rewrite Ep, En; cbn [bnd].
  destruct (unlink_spec _ _ _ _ _ _ _ _ _ Hl EA EB) as [m1 [E1 [L1 [A1 [X1 O1]]]]].
  rewrite E1; cbn [bnd].
  assert (Hxin : In x (h :: l1 ++ x :: l2)) by (right; apply in_or_app; right; left; reflexivity).
  assert (Hax : alloc m x) by exact (is_list_alloc _ _ _ _ Hl Hxin).
  assert (Hxn : ~ In x (h :: l1 ++ l2)).
  { destruct Hl as [Hnd _]. change (h :: l1 ++ x :: l2) with ((h :: l1) ++ x :: l2) in Hnd.
    exact (NoDup_remove_2 _ _ _ Hnd). }
  destruct (list_add_spec m1 h (l1 ++ l2) x L1 Hxn (same_alloc_alloc _ _ _ A1 Hax))
    as [m2 [E2 [L2 [A2 O2]]]].
  exists m2; split; [exact E2|]. split; [exact L2|split; [exact (same_alloc_trans _ _ _ A1 A2)|]].
  intros q Hq. rewrite O2.
  - apply O1. intros Hi. apply Hq. cbn in *. rewrite !in_app_iff in *. cbn. tauto.
  - intros Hi. apply Hq. cbn in *. rewrite !in_app_iff in *. cbn. tauto.
Qed.

Lemma list_empty_spec : forall m h l, is_list m h l ->
  list_empty m h = Some (match l with [] => true | _ => false end).
Proof.
  intros m h l Hl. unfold list_empty.
  destruct (split_first l h) as [n [B EB]].
  destruct (head_next _ _ _ _ _ Hl EB) as [En _]. rewrite En; cbn [bnd]. f_equal.
  destruct l as [|y l]; cbn in EB; injection EB as <- _; [apply Z.eqb_refl|].
  apply Z.eqb_neq. intros ->. destruct Hl as [Hnd _]. inversion Hnd as [|? ? Hni _]; subst.
  apply Hni; left; reflexivity.
Qed.

Lemma list_first_spec : forall m h x l, is_list m h (x :: l) -> list_first_entry m h = Some x.
Proof. intros m h x l [_ Hl]. cbn in Hl. unfold list_first_entry. tauto. Qed.

Lemma free_node_spec : forall m x, alloc m x ->
  exists m', free_node m x = Some m' /\ m' x = None /\ forall q, q <> x -> m' q = m q.
Proof.
  intros m x Ha. unfold free_node. destruct (m x) eqn:E; [|elim Ha; exact E].
  eexists; split; [reflexivity|]. unfold upd. split.
  - rewrite Z.eqb_refl; reflexivity.
  - intros q Hq. destruct (Z.eqb_spec q x); [contradiction|reflexivity].
Qed.
