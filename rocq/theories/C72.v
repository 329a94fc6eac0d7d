(* C72: the lists of the daemon.

   Every operation of list.h used by the daemon, run in the order of its
   stores on a memory where touching freed memory is an error, does to the
   pointers what its name says to the sequence of entries, and touches
   nothing else; walking visits every entry exactly once, in order; and the
   loops of the daemon which take entries off while walking never touch an
   entry they have freed. *)
Require Import List ZArith Lia Bool.
From Verif Require Import ListH ListHLemmas ListWalk ListUse.
Import ListNotations.
Open Scope Z_scope.

(* ---- Specification ----

   is_list m h l (ListHLemmas.v): the entries l hang on the head h in this
   order: they are distinct, distinct from h, and neighbours in h, l, h point
   at each other with next and prev.  only_changes m m' l: nothing outside l
   was written.  same_alloc: nothing was freed. *)

(* two lists which share nothing *)
Definition apart (h1 : Z) (l1 : list Z) (h2 : Z) (l2 : list Z) : Prop :=
  forall q, In q (h1 :: l1) -> ~ In q (h2 :: l2).

(* one operation leaves every list that has nothing to do with it alone *)
Definition others_kept (m m' : mem) (nodes : list Z) : Prop :=
  forall h l, is_list m h l -> (forall q, In q (h :: l) -> ~ In q nodes) -> is_list m' h l.

Lemma only_changes_others : forall m m' n, only_changes m m' n -> others_kept m m' n.
Proof.
  intros m m' n H h l Hl Hd. apply (is_list_frame m); [exact Hl|].
  intros q Hq. apply H, Hd, Hq.
Qed.

Theorem C72_init : forall m h, alloc m h ->
  exists m', list_init m h = Some m' /\ is_list m' h [] /\
    same_alloc m m' /\ only_changes m m' [h] /\ others_kept m m' [h].
Proof.
  intros m h Ha. destruct (list_init_spec m h Ha) as [m' [E [L [A O]]]].
  exists m'; repeat split; try assumption; try apply A; try apply L.
  apply only_changes_others in O. apply O; assumption. apply only_changes_others in O; apply O; assumption.
Qed.

Theorem C72_add : forall m h l x, is_list m h l -> ~ In x (h :: l) -> alloc m x ->
  exists m', list_add m x h = Some m' /\ is_list m' h (x :: l) /\
    same_alloc m m' /\ only_changes m m' (x :: h :: l) /\ others_kept m m' (x :: h :: l).
Proof.
  intros m h l x Hl Hx Ha. destruct (list_add_spec m h l x Hl Hx Ha) as [m' [E [L [A O]]]].
  exists m'. split; [exact E|split; [exact L|split; [exact A|split; [exact O|]]]].
  exact (only_changes_others _ _ _ O).
Qed.

Theorem C72_add_tail : forall m h l x, is_list m h l -> ~ In x (h :: l) -> alloc m x ->
  exists m', list_add_tail m x h = Some m' /\ is_list m' h (l ++ [x]) /\
    same_alloc m m' /\ only_changes m m' (x :: h :: l) /\ others_kept m m' (x :: h :: l).
Proof.
  intros m h l x Hl Hx Ha. destruct (list_add_tail_spec m h l x Hl Hx Ha) as [m' [E [L [A O]]]].
  exists m'. split; [exact E|split; [exact L|split; [exact A|split; [exact O|]]]].
  exact (only_changes_others _ _ _ O).
Qed.

(* the entry taken off holds the two poison values, which point nowhere *)
Theorem C72_del : forall m h l1 x l2, is_list m h (l1 ++ x :: l2) ->
  exists m', list_del m x = Some m' /\ is_list m' h (l1 ++ l2) /\
    same_alloc m m' /\ m' x = Some (POISON1, POISON2) /\
    only_changes m m' (x :: h :: l1 ++ l2) /\ others_kept m m' (x :: h :: l1 ++ l2).
Proof.
  intros m h l1 x l2 Hl. destruct (list_del_spec m h l1 x l2 Hl) as [m' [E [L [A [X O]]]]].
  exists m'. split; [exact E|split; [exact L|split; [exact A|split; [exact X|split; [exact O|]]]]].
  exact (only_changes_others _ _ _ O).
Qed.

Theorem C72_move : forall m h l1 x l2 h2 k,
  is_list m h (l1 ++ x :: l2) -> is_list m h2 k -> apart h (l1 ++ x :: l2) h2 k ->
  exists m', list_move m x h2 = Some m' /\
    is_list m' h (l1 ++ l2) /\ is_list m' h2 (x :: k) /\ apart h (l1 ++ l2) h2 (x :: k) /\
    same_alloc m m' /\ others_kept m m' (h :: l1 ++ x :: l2 ++ h2 :: k).
Proof.
  intros m h l1 x l2 h2 k Hl Hk Hd.
  destruct (list_move_spec m h l1 x l2 h2 k Hl Hk Hd) as [m' [E [L [K [A O]]]]].
  exists m'. split; [exact E|split; [exact L|split; [exact K|split; [|split; [exact A|]]]]].
  - intros q Hq [E1|[E1|Hi]].
    + apply (Hd q); [|left; exact E1]. cbn in Hq |- *. rewrite in_app_iff in *. cbn. tauto.
    + subst q. destruct Hl as [Hnd _]. change (h :: l1 ++ x :: l2) with ((h :: l1) ++ x :: l2) in Hnd.
      exact (NoDup_remove_2 _ _ _ Hnd Hq).
    + apply (Hd q); [|right; exact Hi]. cbn in Hq |- *. rewrite in_app_iff in *. cbn. tauto.
  - exact (only_changes_others _ _ _ O).
Qed.

Theorem C72_move_front : forall m h l1 x l2, is_list m h (l1 ++ x :: l2) ->
  exists m', list_move m x h = Some m' /\ is_list m' h (x :: l1 ++ l2) /\
    same_alloc m m' /\ others_kept m m' (h :: l1 ++ x :: l2).
Proof.
  intros m h l1 x l2 Hl.
  destruct (list_move_same_spec m h l1 x l2 Hl) as [m' [E [L [A O]]]].
  exists m'. split; [exact E|split; [exact L|split; [exact A|]]].
  exact (only_changes_others _ _ _ O).
Qed.

Theorem C72_empty : forall m h l, is_list m h l ->
  exists b, list_empty m h = Some b /\ (b = true <-> l = []).
Proof.
  intros m h l Hl. exists (match l with [] => true | _ => false end).
  split; [exact (list_empty_spec _ _ _ Hl)|]. destruct l; split; congruence.
Qed.

Theorem C72_first : forall m h l, is_list m h l -> l <> [] ->
  list_first_entry m h = hd_error l.
Proof.
  intros m h [|x l] Hl Hn; [congruence|]. exact (list_first_spec _ _ _ _ Hl).
Qed.

(* A walk which records what it sees. *)
Definition record_body : body (list Z) := fun m s x =>
  match m x with Some _ => Some (m, s ++ [x], false) | None => None end.

Lemma visit_record : forall l s,
  visit (fun s x => s ++ [x]) (fun _ _ => false) s l = (s ++ l, Done).
Proof.
  induction l as [|x l IH]; intros s; cbn [visit]; [rewrite app_nil_r; reflexivity|].
  rewrite IH, <- app_assoc. reflexivity.
Qed.

Theorem C72_for_each : forall m h l fuel, is_list m h l -> (length l < fuel)%nat ->
  for_each fuel record_body m [] h = Some (m, l, Done) /\
  for_each_rev fuel record_body m [] h = Some (m, rev l, Done).
Proof.
  intros m h l fuel Hl Hf.
  assert (Hb : forall s x, In x l -> record_body m s x = Some (m, s ++ [x], false)).
  { intros s x Hx. unfold record_body.
    pose proof (is_list_alloc _ _ _ x Hl (or_intror Hx)) as Ha. unfold alloc in Ha.
    destruct (m x); [reflexivity|congruence]. }
  split.
  - rewrite (for_each_spec _ (fun s x => s ++ [x]) (fun _ _ => false) m h l [] fuel Hl Hf Hb).
    rewrite visit_record. reflexivity.
  - rewrite (for_each_rev_spec _ (fun s x => s ++ [x]) (fun _ _ => false) m h l [] fuel Hl Hf Hb).
    rewrite visit_record. reflexivity.
Qed.

(* ---- walks which take entries off ---- *)

(* dropping an entry: taken off, then freed *)
Lemma drop_step : forall m h d x r, is_list m h (d ++ x :: r) ->
  exists m1 m2, list_del m x = Some m1 /\ free_node m1 x = Some m2 /\
    is_list m2 h (d ++ r) /\ m2 x = None /\
    (forall q, ~ In q (h :: d ++ x :: r) -> m2 q = m q).
Proof.
  intros m h d x r Hl.
  destruct (list_del_spec m h d x r Hl) as [m1 [E1 [L1 [A1 [X1 O1]]]]].
  destruct (free_node_spec m1 x) as [m2 [E2 [N2 O2]]]; [unfold alloc; congruence|].
  exists m1, m2. split; [exact E1|split; [exact E2|split; [|split; [exact N2|]]]].
  - apply (is_list_frame m1); [exact L1|]. intros q Hq. apply O2. intros ->.
    destruct Hl as [Hnd _]. change (h :: d ++ x :: r) with ((h :: d) ++ x :: r) in Hnd.
    exact (NoDup_remove_2 _ _ _ Hnd Hq).
  - intros q Hq. rewrite O2.
    + apply O1. intros Hi. apply Hq. cbn in *. rewrite in_app_iff in *. cbn. tauto.
    + intros ->. apply Hq. right. apply in_or_app; right; left; reflexivity.
Qed.

(* the state of a walk which drops entries: o are those freed so far *)
Definition drop_inv (m0 : mem) (h : Z) (L : list Z) (m : mem) (l k o : list Z) : Prop :=
  is_list m h l /\ k = [] /\ (forall q, In q o -> m q = None) /\
  (forall q, In q l -> In q L) /\ (forall q, ~ In q (h :: L) -> m q = m0 q).

Lemma drop_walk : forall {S} (b : body S) (dec : S -> Z -> S * act) m0 h L,
  (forall m s x, m x <> None -> snd (dec s x) = Keep -> b m s x = Some (m, fst (dec s x), false)) ->
  (forall m s x m1 m2, m x <> None -> snd (dec s x) <> Keep ->
     list_del m x = Some m1 -> free_node m1 x = Some m2 -> b m s x = Some (m2, fst (dec s x), false)) ->
  (forall s x, snd (dec s x) <> Move) ->
  walk_inv b dec h (drop_inv m0 h L).
Proof.
  intros S b dec m0 h L HK HD HM. split.
  - intros m l k o [H _]; exact H.
  - intros m s d x r k o [Hl [Hk [Ho [Hsub Hfr]]]].
    assert (Ha : m x <> None).
    { apply (is_list_alloc _ _ _ _ Hl). right; apply in_or_app; right; left; reflexivity. }
    destruct (snd (dec s x)) eqn:Ea.
    + exists m. split; [exact (HK m s x Ha Ea)|]. repeat split; try assumption; apply Hl.
    + destruct (drop_step m h d x r Hl) as [m1 [m2 [E1 [E2 [L2 [N2 F2]]]]]].
      exists m2. split; [apply (HD m s x m1 m2 Ha); [rewrite Ea; discriminate|exact E1|exact E2]|].
      cbn [kept1 moved1 app]. repeat split; try apply L2; try exact Hk.
      * intros q [<-|Hq]; [exact N2|]. rewrite F2; [exact (Ho q Hq)|].
        intros Hi. exact (is_list_alloc _ _ _ _ Hl Hi (Ho q Hq)).
      * intros q Hq. apply Hsub. rewrite in_app_iff in *. cbn. tauto.
      * intros q Hq. rewrite F2; [exact (Hfr q Hq)|].
        intros [<-|Hi]; apply Hq; [left; reflexivity|right; exact (Hsub q Hi)].
    + elim (HM s x Ea).
Qed.

Lemma acts_drop : forall (sel : Z -> bool) l s,
  acts (fun (s : list Z) x => if sel x then (s ++ [x], Drop) else (s, Keep)) s l [] =
    (s ++ filter sel l, filter (fun x => negb (sel x)) l, []).
Proof.
  intros sel; induction l as [|x l IH]; intros s; cbn [acts filter]; [rewrite app_nil_r; reflexivity|].
  destruct (sel x); cbn [negb moved1 kept1 app]; rewrite IH; [rewrite <- app_assoc|]; reflexivity.
Qed.
Lemma dropped_drop : forall (sel : Z -> bool) l s o,
  dropped (fun (s : list Z) x => if sel x then (s ++ [x], Drop) else (s, Keep)) s l o =
    rev (filter sel l) ++ o.
Proof.
  intros sel; induction l as [|x l IH]; intros s o; cbn [dropped filter]; [reflexivity|].
  destruct (sel x); cbn [fst snd]; rewrite IH; [cbn [rev]; rewrite <- app_assoc|]; reflexivity.
Qed.

(* what a walk dropping the selected entries has to leave behind *)
Definition dropped_ok (sel : Z -> bool) (m : mem) (h : Z) (l : list Z)
    (out : option (mem * list Z * loop_end)) : Prop :=
  exists m', out = Some (m', filter sel l, Done) /\
    is_list m' h (filter (fun x => negb (sel x)) l) /\
    (forall q, In q l -> sel q = true -> m' q = None) /\
    (forall q, ~ In q (h :: l) -> m' q = m q).

Lemma drop_loop : forall (b : body (list Z)) sel m h l fuel,
  (forall m s x, m x <> None -> sel x = false -> b m s x = Some (m, s, false)) ->
  (forall m s x m1 m2, m x <> None -> sel x = true ->
     list_del m x = Some m1 -> free_node m1 x = Some m2 -> b m s x = Some (m2, s ++ [x], false)) ->
  is_list m h l -> (length l < fuel)%nat ->
  dropped_ok sel m h l (for_each_safe fuel b m [] h).
Proof.
  intros b sel m h l fuel HK HD Hl Hf.
  pose (dec := fun (s : list Z) x => if sel x then (s ++ [x], Drop) else (s, Keep)).
  assert (HI : walk_inv b dec h (drop_inv m h l)).
  { apply drop_walk.
    - intros m' s x Ha. unfold dec. destruct (sel x) eqn:E; cbn; [discriminate|].
      intros _; apply HK; assumption.
    - intros m' s x m1 m2 Ha. unfold dec. destruct (sel x) eqn:E; cbn; [|congruence].
      intros _ E1 E2. exact (HD m' s x m1 m2 Ha E E1 E2).
    - intros s x. unfold dec. destruct (sel x); discriminate. }
  assert (HP : drop_inv m h l m l [] []).
  { repeat split; try apply Hl; try tauto. intros q []. }
  destruct (for_each_safe_spec b dec h _ HI l [] m [] fuel HP Hf) as [m' [E [L' [_ [D [_ F]]]]]].
  unfold dec in E, L', D. rewrite acts_drop in E, L'. rewrite dropped_drop in D.
  cbn [fst snd app] in E, L'. rewrite app_nil_r in D.
  exists m'. split; [exact E|split; [exact L'|split; [|exact F]]].
  intros q Hq Hs. apply D. rewrite <- in_rev. apply filter_In. split; assumption.
Qed.

(* purge_resource_list frees exactly the entries of the lockspace *)
Theorem C72_purge : forall m a head ls l fuel,
  is_list m head l -> (length l < fuel)%nat ->
  dropped_ok (fun q => r_ls (a q) =? ls) m head l (purge_resource_list fuel m a head ls).
Proof.
  intros m a head ls l fuel Hl Hf. unfold purge_resource_list. apply drop_loop; try assumption.
  - intros m' s x Ha E. unfold purge_body, ld_res. destruct (m' x); [|congruence].
    cbn [bnd]. rewrite E. reflexivity.
  - intros m' s x m1 m2 Ha E E1 E2. unfold purge_body, ld_res. destruct (m' x); [|congruence].
    cbn [bnd]. rewrite E. cbn [negb]. rewrite E1. cbn [bnd]. rewrite E2. reflexivity.
Qed.

(* free_lockspaces frees exactly those whose thread has ended *)
Theorem C72_free_lockspaces : forall m stopped head l fuel,
  is_list m head l -> (length l < fuel)%nat ->
  dropped_ok stopped m head l (free_lockspaces fuel m stopped head).
Proof.
  intros m stopped head l fuel Hl Hf. unfold free_lockspaces. apply drop_loop; try assumption.
  - intros m' s x Ha E. unfold lockspaces_body. destruct (m' x); [|congruence].
    rewrite E. reflexivity.
  - intros m' s x m1 m2 Ha E E1 E2. unfold lockspaces_body. destruct (m' x); [|congruence].
    rewrite E, E1. cbn [bnd]. rewrite E2. reflexivity.
Qed.

(* release_orphan moves exactly the entries asked for to the other list, in
   reverse order, marks them, and counts them *)
Definition asked (a : fields) (ls name : Z) (q : Z) : bool :=
  (r_ls (a q) =? ls) && ((name =? 0) || (r_name (a q) =? name)).
Definition marked (f : res) : res :=
  Res (r_ls f) (r_name f) (r_disks f) (r_path f) (r_reused f) true.

Definition move_inv (m0 : mem) (h h2 : Z) (L K : list Z) (m : mem) (l k o : list Z) : Prop :=
  is_list m h l /\ is_list m h2 k /\ apart h l h2 k /\ o = [] /\
  (forall q, In q l -> In q L) /\ (forall q, In q k -> In q (L ++ K)) /\
  same_alloc m0 m /\ (forall q, ~ In q (h :: L ++ h2 :: K) -> m q = m0 q).

Definition orphan_dec (ls name : Z) (s : fields * Z) (x : Z) : (fields * Z) * act :=
  if asked (fst s) ls name x then
    ((set_fields (fst s) x (marked (fst s x)), snd s + 1), Move)
  else (s, Keep).

Lemma orphan_walk : forall m0 h rem L K ls name,
  walk_inv (orphan_body ls name rem) (orphan_dec ls name) h (move_inv m0 h rem L K).
Proof.
  intros m0 h rem L K ls name. split.
  - intros m l k o [H _]; exact H.
  - intros m s d x r k o [Hl [Hk [Hap [Ho [HsL [HsK [Hsa Hfr]]]]]]].
    assert (Ha : m x <> None).
    { apply (is_list_alloc _ _ _ _ Hl). right; apply in_or_app; right; left; reflexivity. }
    destruct s as [a c]. unfold orphan_body, orphan_dec, asked, ld_res. cbn [fst snd].
    destruct (m x) as [cell|] eqn:Emx; [|congruence]. cbn [bnd].
    destruct (r_ls (a x) =? ls); cbn [negb andb].
    2:{ exists m. split; [reflexivity|]. cbn [kept1 moved1 app snd].
        repeat split; try assumption; try apply Hl; try apply Hk; try apply Hsa. }
    destruct ((name =? 0) || (r_name (a x) =? name)).
    2:{ exists m. split; [reflexivity|]. cbn [kept1 moved1 app snd].
        repeat split; try assumption; try apply Hl; try apply Hk; try apply Hsa. }
    cbn [fst snd kept1 moved1 app].
    destruct (C72_move m h d x r rem k Hl Hk Hap) as [m1 [E1 [L1 [K1 [A1 [S1 _]]]]]].
    destruct (list_move_spec m h d x r rem k Hl Hk Hap) as [m1' [E1' [_ [_ [_ O1]]]]].
    rewrite E1 in E1'. injection E1' as <-.
    exists m1. rewrite E1. cbn [bnd]. split; [reflexivity|].
    split; [exact L1|]. split; [exact K1|]. split; [exact A1|]. split; [exact Ho|].
    split; [intros q Hq; apply HsL; rewrite in_app_iff in *; cbn; tauto|].
    split; [intros q [<-|Hq]; [apply in_or_app; left; apply HsL; apply in_or_app; right; left; reflexivity|exact (HsK q Hq)]|].
    split; [exact (same_alloc_trans _ _ _ Hsa S1)|].
    intros q Hq. rewrite O1; [exact (Hfr q Hq)|]. intros Hi. apply Hq.
    assert (Hi' : In q (h :: d ++ x :: r) \/ In q (rem :: k)).
    { cbn in Hi |- *. rewrite !in_app_iff in *. cbn in Hi |- *. rewrite in_app_iff in Hi. cbn in Hi. tauto. }
    destruct Hi' as [[<-|Hi']|[<-|Hi']].
    + left; reflexivity.
    + right; apply in_or_app; left; exact (HsL q Hi').
    + right; apply in_or_app; right; left; reflexivity.
    + specialize (HsK q Hi'). right. rewrite in_app_iff in *. cbn. tauto.
Qed.

Lemma acts_orphan : forall ls name a0 l a c k,
  NoDup l ->
  (forall q, r_ls (a q) = r_ls (a0 q) /\ r_name (a q) = r_name (a0 q)) ->
  exists a', acts (orphan_dec ls name) (a, c) l k =
    ((a', c + Z.of_nat (length (filter (asked a0 ls name) l))),
     filter (fun x => negb (asked a0 ls name x)) l,
     rev (filter (asked a0 ls name) l) ++ k) /\
    (forall q, In q l -> asked a0 ls name q = true -> a' q = marked (a q)) /\
    (forall q, ~ (In q l /\ asked a0 ls name q = true) -> a' q = a q).
Proof.
  intros ls name a0; induction l as [|x l IH]; intros a c k Hnd Hs.
  - exists a. cbn [acts filter length rev app Z.of_nat]. rewrite Z.add_0_r.
    split; [reflexivity|split; [intros q []|reflexivity]].
  - inversion Hnd as [|? ? Hx Hnd']; subst.
    assert (Eas : asked a ls name x = asked a0 ls name x).
    { unfold asked. destruct (Hs x) as [-> ->]. reflexivity. }
    assert (Ed : orphan_dec ls name (a, c) x =
              if asked a0 ls name x then ((set_fields a x (marked (a x)), c + 1), Move) else ((a, c), Keep)).
    { unfold orphan_dec. cbn [fst snd]. rewrite Eas. reflexivity. }
    cbn [acts filter]. rewrite Ed.
    destruct (asked a0 ls name x) eqn:E; cbn [negb moved1 kept1 app].
    + destruct (IH (set_fields a x (marked (a x))) (c + 1) (x :: k) Hnd') as [a' [E' [M' F']]].
      { intros q. unfold set_fields, marked. destruct (Z.eqb_spec q x) as [->|_]; cbn; apply Hs. }
      exists a'. unfold fields in E' |- *. rewrite E'. split; [|split].
      * cbn [length rev]. rewrite <- app_assoc. cbn [app].
        replace (c + 1 + Z.of_nat (length (filter (asked a0 ls name) l)))
          with (c + Z.of_nat (S (length (filter (asked a0 ls name) l)))) by lia.
        reflexivity.
      * intros q [<-|Hq] Hqa.
        { rewrite F' by tauto. unfold set_fields. rewrite Z.eqb_refl. reflexivity. }
        { rewrite M' by assumption. unfold set_fields.
          destruct (Z.eqb_spec q x) as [->|_]; [contradiction|reflexivity]. }
      * intros q Hq. rewrite F'; [|intros [H1 H2]; apply Hq; split; [right|]; assumption].
        unfold set_fields. destruct (Z.eqb_spec q x) as [->|_]; [|reflexivity].
        elim Hq. split; [left; reflexivity|exact E].
    + destruct (IH a c k Hnd' Hs) as [a' [E' [M' F']]].
      exists a'. rewrite E'. split; [reflexivity|split].
      * intros q [<-|Hq] Hqa; [congruence|exact (M' q Hq Hqa)].
      * intros q Hq. apply F'. intros [H1 H2]; apply Hq; split; [right|]; assumption.
Qed.

Theorem C72_release_orphan : forall m a orphans rem ls name l k fuel,
  is_list m orphans l -> is_list m rem k -> apart orphans l rem k -> (length l < fuel)%nat ->
  exists m' a' n, release_orphan fuel m a orphans rem ls name = Some (m', (a', n), Done) /\
    n = Z.of_nat (length (filter (asked a ls name) l)) /\
    is_list m' orphans (filter (fun q => negb (asked a ls name q)) l) /\
    is_list m' rem (rev (filter (asked a ls name) l) ++ k) /\
    (forall q, In q l -> asked a ls name q = true -> a' q = marked (a q)) /\
    (forall q, ~ (In q l /\ asked a ls name q = true) -> a' q = a q) /\
    same_alloc m m' /\
    (forall q, ~ In q (orphans :: l ++ rem :: k) -> m' q = m q).
Proof.
  intros m a orphans rem ls name l k fuel Hl Hk Hap Hf.
  assert (HP : move_inv m orphans rem l k m l k []).
  { split; [exact Hl|]. split; [exact Hk|]. split; [exact Hap|]. split; [reflexivity|].
    split; [tauto|]. split; [intros q Hq; apply in_or_app; right; exact Hq|].
    split; [intros q; tauto|reflexivity]. }
  destruct (for_each_safe_spec _ _ _ _ (orphan_walk m orphans rem l k ls name) l k m (a, 0) fuel HP Hf)
    as [m' [E HP']].
  assert (Hnd : NoDup l) by (destruct Hl as [Hnd _]; inversion Hnd; assumption).
  destruct (acts_orphan ls name a l a 0 k Hnd (fun q => conj eq_refl eq_refl)) as [a' [Ea [M F]]].
  unfold fields in Ea, E, HP'; rewrite Ea in E, HP'. cbn [fst snd] in E, HP'. rewrite Z.add_0_l in E.
  destruct HP' as [L' [K' [_ [_ [_ [_ [S' F']]]]]]].
  exists m', a', (Z.of_nat (length (filter (asked a ls name) l))).
  unfold release_orphan. split; [exact E|]. split; [reflexivity|].
  split; [exact L'|]. split; [exact K'|]. split; [exact M|]. split; [exact F|]. split; assumption.
Qed.

(* Why the walks above need the safe form: with the plain loop the same body
   reads the next pointer of the entry it has just freed. *)
Theorem C72_plain_loop_fails : forall m a head ls l fuel q,
  is_list m head l -> In q l -> r_ls (a q) = ls -> (length l < fuel)%nat ->
  for_each fuel (purge_body a ls) m [] head = None.
Proof.
  intros m a head ls l fuel q Hl Hq Hls Hf. unfold for_each.
  rewrite (next_head _ _ _ Hl). cbn [bnd].
  assert (G : forall r d s fuel, is_list m head (d ++ r) -> In q r -> (length r < fuel)%nat ->
            for_each_from fuel (purge_body a ls) m s (next_of head r) head = None).
  { induction r as [|x r IH]; intros d s fu Hd Hin Hfu; [destruct Hin|].
    destruct fu as [|fu]; [cbn in Hfu; lia|].
    cbn [for_each_from]. change (next_of head (x :: r)) with x.
    rewrite (entry_neq_head _ _ _ _ _ Hd).
    assert (Ha : m x <> None).
    { apply (is_list_alloc _ _ _ _ Hd). right; apply in_or_app; right; left; reflexivity. }
    destruct (m x) as [cell|] eqn:Em; [|congruence].
    unfold purge_body at 1, ld_res. rewrite Em. cbn [bnd].
    destruct (r_ls (a x) =? ls) eqn:Ex; cbn [negb].
    - destruct (drop_step m head d x r Hd) as [m1 [m2 [E1 [E2 [_ [N2 _]]]]]].
      rewrite E1. cbn [bnd]. rewrite E2. cbn [bnd]. unfold ld_next. rewrite N2. reflexivity.
    - rewrite (next_entry _ _ _ _ _ Hd). cbn [bnd].
      apply (IH (d ++ [x])); [rewrite <- app_assoc; exact Hd| |cbn in Hfu; lia].
      destruct Hin as [<-|Hin]; [|exact Hin]. apply Z.eqb_neq in Ex. congruence. }
  apply (G l [] [] fuel Hl Hq Hf).
Qed.

(* and with list_move the plain loop goes on in the other list *)
Theorem C72_plain_move_strays : forall m h x r h2 k,
  is_list m h (x :: r) -> is_list m h2 k -> apart h (x :: r) h2 k ->
  exists m1, list_move m x h2 = Some m1 /\
    exists y, ld_next m1 x = Some y /\ In y (h2 :: k) /\ ~ In y (h :: x :: r).
Proof.
  intros m h x r h2 k Hl Hk Hap.
  destruct (C72_move m h [] x r h2 k Hl Hk Hap) as [m1 [E [_ [K1 _]]]].
  exists m1. split; [exact E|]. exists (next_of h2 k).
  assert (Hin : In (next_of h2 k) (h2 :: k)) by (destruct k; cbn; tauto).
  split; [exact (next_entry m1 h2 [] x k K1)|split; [exact Hin|]].
  intros Hi. exact (Hap _ Hi Hin).
Qed.

(* ---- A concrete case: three resources of two lockspaces on one list ---- *)
Definition ex_mem : mem := fun q =>
  if q =? 1 then Some (0, 0) else if q =? 10 then Some (0, 0) else if q =? 20 then Some (0, 0)
  else if q =? 30 then Some (0, 0) else if q =? 2 then Some (0, 0) else None.
Definition ex_fields : fields := fun q =>
  Res (if q =? 20 then 8 else 7) q 1 5 0 false.

Example C72_nonvacuous :
  exists m, is_list m 1 [30; 20; 10] /\ is_list m 2 [] /\ apart 1 [30; 20; 10] 2 [] /\
    (exists m', purge_resource_list 4 m ex_fields 1 7 = Some (m', [30; 10], Done) /\
       is_list m' 1 [20] /\ m' 30 = None /\ m' 10 = None) /\
    (exists m' a', release_orphan 4 m ex_fields 1 2 7 0 = Some (m', (a', 2), Done) /\
       is_list m' 1 [20] /\ is_list m' 2 [10; 30]) /\
    for_each 9 (purge_body ex_fields 7) m [] 1 = None.
Proof.
  destruct (C72_init ex_mem 1) as [m0 [_ [L0 [A0 [_ _]]]]]; [cbv; discriminate|].
  destruct (C72_init m0 2) as [m1 [_ [L1 [A1 [_ O1]]]]].
  { apply (same_alloc_alloc _ _ _ A0). cbv; discriminate. }
  assert (L0' : is_list m1 1 []).
  { apply O1; [exact L0|]. intros q [<-|[]] [H|[]]; discriminate. }
  pose proof (same_alloc_trans _ _ _ A0 A1) as A01.
  destruct (C72_add m1 1 [] 10 L0') as [m2 [_ [L2 [A2 [_ O2]]]]];
    [cbn; intros [H|[]]; discriminate|apply (same_alloc_alloc _ _ _ A01); cbv; discriminate|].
  pose proof (same_alloc_trans _ _ _ A01 A2) as A02.
  assert (L1' : is_list m2 2 []).
  { apply O2; [exact L1|]. intros q [<-|[]] Hi. cbn in Hi. intuition discriminate. }
  destruct (C72_add m2 1 [10] 20 L2) as [m3 [_ [L3 [A3 [_ O3]]]]];
    [cbn; intuition discriminate|apply (same_alloc_alloc _ _ _ A02); cbv; discriminate|].
  pose proof (same_alloc_trans _ _ _ A02 A3) as A03.
  assert (L1'' : is_list m3 2 []).
  { apply O3; [exact L1'|]. intros q [<-|[]] Hi. cbn in Hi. intuition discriminate. }
  destruct (C72_add m3 1 [20; 10] 30 L3) as [m4 [_ [L4 [A4 [_ O4]]]]];
    [cbn; intuition discriminate|apply (same_alloc_alloc _ _ _ A03); cbv; discriminate|].
  assert (L1s : is_list m4 2 []).
  { apply O4; [exact L1''|]. intros q [<-|[]] Hi. cbn in Hi. intuition discriminate. }
  assert (Hap : apart 1 [30; 20; 10] 2 []).
  { intros q Hq [<-|[]]. cbn in Hq. intuition discriminate. }
  exists m4. split; [exact L4|]. split; [exact L1s|]. split; [exact Hap|]. split; [|split].
  - destruct (C72_purge m4 ex_fields 1 7 _ 4 L4 ltac:(cbn; lia)) as [m' [E [L' [D _]]]].
    exists m'. split; [exact E|]. split; [exact L'|].
    split; apply D; try reflexivity; cbn; tauto.
  - destruct (C72_release_orphan m4 ex_fields 1 2 7 0 _ _ 4 L4 L1s Hap ltac:(cbn; lia))
      as [m' [a' [n [E [-> [L' [K' _]]]]]]].
    exists m', a'. split; [exact E|]. split; [exact L'|exact K'].
  - apply (C72_plain_loop_fails m4 ex_fields 1 7 [30; 20; 10] 9 30 L4); cbn; tauto || lia.
Qed.

Print Assumptions C72_init.
Print Assumptions C72_add.
Print Assumptions C72_add_tail.
Print Assumptions C72_del.
Print Assumptions C72_move.
Print Assumptions C72_move_front.
Print Assumptions C72_empty.
Print Assumptions C72_first.
Print Assumptions C72_for_each.
Print Assumptions C72_purge.
Print Assumptions C72_free_lockspaces.
Print Assumptions C72_release_orphan.
Print Assumptions C72_plain_loop_fails.
Print Assumptions C72_plain_move_strays.
