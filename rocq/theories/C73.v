(* C73: the cache of free resource structures.

   A structure that is not used any more is kept on a list of at most 128,
   and taken from it when the same resource is acquired again; when the cache
   is full the structure that was reused least is thrown away, the one that
   has been there longest among equals; the counter is the length of the
   list. *)
Require Import List ZArith Lia Bool.
From Verif Require Import ListH ListHLemmas ListWalk ListUse C72.
Import ListNotations.
Open Scope Z_scope.

(* ---- Specification ---- *)

(* v is the entry of l to throw away (new entries are added at the front) *)
Definition to_evict (a : fields) (l1 : list Z) (v : Z) (l2 : list Z) : Prop :=
  (forall q, In q l1 -> r_reused (a v) <= r_reused (a q)) /\
  (forall q, In q l2 -> r_reused (a v) < r_reused (a q)).

Definition matches (a : fields) (w : want) (q : Z) : bool :=
  (r_ls (a q) =? w_ls w) && (r_name (a q) =? w_name w) &&
  (r_disks (a q) =? w_disks w) && (r_path (a q) =? w_path w).

Lemma is_list_unique : forall m h l l', is_list m h l -> is_list m h l' -> l = l'.
Proof.
  intros m h l l' H H'.
  destruct (C72_for_each m h l (S (length l + length l')) H ltac:(lia)) as [E _].
  destruct (C72_for_each m h l' (S (length l + length l')) H' ltac:(lia)) as [E' _].
  congruence.
Qed.

(* ---- the search for the victim ---- *)
Definition best (a : fields) (r : list Z) (rmin : option Z) : Prop :=
  (forall y, In y r -> 0 < r_reused (a y)) /\
  match rmin with
  | None => r = []
  | Some q => exists r1 r2, r = r1 ++ q :: r2 /\ to_evict a r1 q r2
  end.

Lemma evict_search : forall m a h d r rmin fuel,
  is_list m h (d ++ r) -> (forall q, 0 <= r_reused (a q)) -> best a r rmin ->
  (length d < fuel)%nat ->
  exists m' rmin' e,
    for_each_rev_from fuel (evict_body a) m rmin (next_of h (rev d)) h = Some (m', rmin', e) /\
    match e with
    | Left => exists d1 v d2, d = d1 ++ v :: d2 /\ to_evict a d1 v (d2 ++ r) /\
        is_list m' h (d1 ++ d2 ++ r) /\ m' v = None /\
        (forall q, ~ In q (h :: d ++ r) -> m' q = m q)
    | Done => m' = m /\ best a (d ++ r) rmin'
    | More => False
    end.
Proof.
  intros m a h d. induction d as [|x d IH] using rev_ind; intros r rmin fuel Hl Hpos Hb Hf;
    destruct fuel as [|fuel]; rewrite ?app_length in Hf; cbn in Hf; try lia.
  - cbn. rewrite Z.eqb_refl. exists m, rmin, Done. split; [reflexivity|]. split; [reflexivity|exact Hb].
  - rewrite rev_app_distr. cbn [rev app]. cbn [for_each_rev_from next_of].
    rewrite <- app_assoc in Hl |- *. cbn [app] in Hl |- *.
    rewrite (entry_neq_head _ _ _ _ _ Hl).
    assert (Ha : m x <> None).
    { apply (is_list_alloc _ _ _ _ Hl). right; apply in_or_app; right; left; reflexivity. }
    unfold evict_body at 1. unfold ld_res at 1. destruct (m x) as [cell|] eqn:Emx; [|congruence].
    cbn [bnd]. destruct Hb as [Hp Hb].
    destruct (Z.eqb_spec (r_reused (a x)) 0) as [E0|E0].
    + destruct (drop_step m h d x r Hl) as [m1 [m2 [E1 [E2 [L2 [N2 F2]]]]]].
      rewrite E1. cbn [bnd]. rewrite E2. cbn [bnd].
      exists m2, rmin, Left. split; [reflexivity|].
      exists d, x, []. split; [reflexivity|]. split; [|split; [exact L2|split; [exact N2|]]].
      * split; intros q Hq; rewrite E0; [apply Hpos|apply Hp; exact Hq].
      * intros q Hq. apply F2. exact Hq.
    + assert (Hx : 0 < r_reused (a x)) by (pose proof (Hpos x); lia).
      assert (Hstep : exists rmin1,
        best a (x :: r) rmin1 /\
        match rmin with
        | None => Some (m, Some x, false)
        | Some q => LET g <- ld_res m a q;
                    Some (m, (if r_reused (a x) <? r_reused g then Some x else Some q), false)
        end = Some (m, rmin1, false)).
      { destruct rmin as [q|].
        - destruct Hb as [r1 [r2 [Er [T1 T2]]]].
          assert (Haq : m q <> None).
          { apply (is_list_alloc _ _ _ _ Hl). right. apply in_or_app; right; right.
            rewrite Er. apply in_or_app; right; left; reflexivity. }
          unfold ld_res. destruct (m q); [|congruence]. cbn [bnd].
          eexists; split; [|reflexivity]. destruct (Z.ltb_spec (r_reused (a x)) (r_reused (a q))).
          + split; [intros y [<-|Hy]; [exact Hx|exact (Hp y Hy)]|].
            exists [], r. split; [reflexivity|]. split; [intros y []|].
            intros y Hy. rewrite Er in Hy. apply in_app_or in Hy.
            destruct Hy as [Hy|[<-|Hy]]; [specialize (T1 y Hy)| |specialize (T2 y Hy)]; lia.
          + split; [intros y [<-|Hy]; [exact Hx|exact (Hp y Hy)]|].
            exists (x :: r1), r2. split; [rewrite Er; reflexivity|]. split; [|exact T2].
            intros y [<-|Hy]; [lia|exact (T1 y Hy)].
        - exists (Some x). split; [|reflexivity]. subst r.
          split; [intros y [<-|[]]; exact Hx|]. exists [], []. split; [reflexivity|].
          split; intros y []. }
      destruct Hstep as [rmin1 [Hb1 Es]]. rewrite Es.
      rewrite (prev_entry _ _ _ _ _ Hl). cbn [bnd].
      destruct (IH (x :: r) rmin1 fuel Hl Hpos Hb1 ltac:(lia)) as [m' [rmin' [e [Ee Hres]]]].
      exists m', rmin', e. split; [exact Ee|].
      destruct e; [exact Hres| |exact Hres].
      destruct Hres as [d1 [v [d2 [Ed [T [L' [N' F']]]]]]].
      exists d1, v, (d2 ++ [x]). split; [rewrite Ed, <- app_assoc; reflexivity|].
      rewrite <- app_assoc. cbn [app]. split; [exact T|]. split; [exact L'|]. split; [exact N'|exact F'].
Qed.

(* one structure is given back *)
Theorem C73_free : forall m a count h l x fuel,
  is_list m h l -> ~ In x (h :: l) -> alloc m x -> (forall q, 0 <= r_reused (a q)) ->
  (length l < fuel)%nat ->
  exists m' count', free_resource fuel m a count h x = Some (m', count') /\
    (forall q, ~ In q (x :: h :: l) -> m' q = m q) /\
    ((count < FREE_RES_COUNT /\ count' = count + 1 /\ is_list m' h (x :: l)) \/
     (FREE_RES_COUNT <= count /\ count' = count /\ l = [] /\ is_list m' h [x]) \/
     (FREE_RES_COUNT <= count /\ count' = count /\
        exists l1 v l2, l = l1 ++ v :: l2 /\ to_evict a l1 v l2 /\
          is_list m' h (x :: l1 ++ l2) /\ m' v = None)).
Proof.
  intros m a count h l x fuel Hl Hx Ha Hpos Hf. unfold free_resource.
  destruct (Z.ltb_spec count FREE_RES_COUNT) as [Hc|Hc].
  - destruct (list_add_spec m h l x Hl Hx Ha) as [m1 [E [L [_ O]]]]. rewrite E. cbn [bnd].
    exists m1, (count + 1). split; [reflexivity|]. split; [exact O|].
    left. split; [exact Hc|split; [reflexivity|exact L]].
  - unfold for_each_rev. rewrite (prev_head _ _ _ Hl). cbn [bnd].
    destruct (evict_search m a h l [] None fuel) as [m1 [rmin [e [E Hres]]]];
      [rewrite app_nil_r; exact Hl|exact Hpos|split; [intros y []|reflexivity]|exact Hf|].
    rewrite E. destruct e.
    + destruct Hres as [-> [_ Hb]]. rewrite app_nil_r in Hb. destruct rmin as [v|].
      * destruct Hb as [l1 [l2 [El T]]]. rewrite El in Hl.
        destruct (drop_step m h l1 v l2 Hl) as [m2 [m3 [E2 [E3 [L3 [N3 F3]]]]]].
        rewrite E2. cbn [bnd]. rewrite E3. cbn [bnd].
        assert (Hx' : ~ In x (h :: l1 ++ l2)).
        { intros Hi. apply Hx. rewrite El. cbn in *. rewrite in_app_iff in *. cbn. tauto. }
        assert (Ha' : alloc m3 x).
        { unfold alloc. rewrite F3; [exact Ha|]. rewrite <- El. exact Hx. }
        destruct (list_add_spec m3 h (l1 ++ l2) x L3 Hx' Ha') as [m4 [E4 [L4 [_ O4]]]].
        rewrite E4. cbn [bnd]. exists m4, count. split; [reflexivity|]. split.
        { intros q Hq. rewrite O4, F3; [reflexivity| |].
          - intros Hi. apply Hq. right. rewrite El. exact Hi.
          - intros Hi. apply Hq. rewrite El. cbn in *. rewrite in_app_iff in *. cbn. tauto. }
        right; right. split; [exact Hc|]. split; [reflexivity|].
        exists l1, v, l2. split; [exact El|]. split; [exact T|]. split; [exact L4|].
        rewrite O4; [exact N3|]. intros [<-|Hi].
        { apply Hx. rewrite El. right; apply in_or_app; right; left; reflexivity. }
        { exact (is_list_alloc _ _ _ _ L3 Hi N3). }
      * subst l. destruct (list_add_spec m h [] x Hl Hx Ha) as [m2 [E2 [L2 [_ O2]]]].
        rewrite E2. cbn [bnd]. exists m2, count. split; [reflexivity|]. split; [exact O2|].
        right; left. split; [exact Hc|]. split; [reflexivity|]. split; [reflexivity|exact L2].
    + destruct Hres as [l1 [v [l2 [El [T [L1 [N1 F1]]]]]]]. rewrite !app_nil_r in *.
      assert (Hx' : ~ In x (h :: l1 ++ l2)).
      { intros Hi. apply Hx. rewrite El. cbn in *. rewrite in_app_iff in *. cbn. tauto. }
      assert (Ha' : alloc m1 x) by (unfold alloc; rewrite F1; [exact Ha|exact Hx]).
      destruct (list_add_spec m1 h (l1 ++ l2) x L1 Hx' Ha') as [m2 [E2 [L2 [_ O2]]]].
      rewrite E2. cbn [bnd]. exists m2, count. split; [destruct rmin; reflexivity|]. split.
      { intros q Hq. rewrite O2, F1; [reflexivity| |].
        - intros Hi. apply Hq. right; exact Hi.
        - intros Hi. apply Hq. rewrite El. cbn in *. rewrite in_app_iff in *. cbn. tauto. }
      right; right. split; [exact Hc|]. split; [reflexivity|].
      exists l1, v, l2. split; [exact El|]. split; [exact T|]. split; [exact L2|].
      rewrite O2; [exact N1|]. intros [<-|Hi].
      { apply Hx. rewrite El. right; apply in_or_app; right; left; reflexivity. }
      { exact (is_list_alloc _ _ _ _ L1 Hi N1). }
    + destruct Hres.
Qed.

(* one is asked for: the first that fits *)
Lemma get_search : forall m a w h r d fuel,
  is_list m h (d ++ r) -> (length r < fuel)%nat ->
  exists m' s e, for_each_from fuel (get_body a w) m None (next_of h r) h = Some (m', s, e) /\
    match e with
    | Done => s = None /\ m' = m /\ forall q, In q r -> matches a w q = false
    | Left => exists r1 x r2, r = r1 ++ x :: r2 /\ s = Some x /\ matches a w x = true /\
        (forall q, In q r1 -> matches a w q = false) /\
        is_list m' h (d ++ r1 ++ r2) /\ m' x <> None /\
        (forall q, ~ In q (h :: d ++ r) -> m' q = m q)
    | More => False
    end.
Proof.
  intros m a w h. induction r as [|x r IH]; intros d fuel Hl Hf; destruct fuel as [|fuel]; cbn in Hf; try lia.
  - exists m, None, Done. cbn. rewrite Z.eqb_refl. split; [reflexivity|].
    split; [reflexivity|split; [reflexivity|intros q []]].
  - cbn [for_each_from]. change (next_of h (x :: r)) with x. rewrite (entry_neq_head _ _ _ _ _ Hl).
    assert (Ha : m x <> None).
    { apply (is_list_alloc _ _ _ _ Hl). right; apply in_or_app; right; left; reflexivity. }
    destruct (list_del_spec m h d x r Hl) as [m1 [E1 [L1 [_ [X1 O1]]]]].
    assert (Eb : get_body a w m None x =
              if matches a w x then Some (m1, Some x, true) else Some (m, None, false)).
    { unfold get_body, matches, ld_res. destruct (m x); [|congruence]. cbn [bnd].
      destruct (r_ls (a x) =? w_ls w); cbn [negb andb]; [|reflexivity].
      destruct (r_name (a x) =? w_name w); cbn [negb andb]; [|reflexivity].
      destruct (r_disks (a x) =? w_disks w); cbn [negb andb]; [|reflexivity].
      destruct (r_path (a x) =? w_path w); cbn [negb andb]; [|reflexivity].
      rewrite E1. reflexivity. }
    rewrite Eb. destruct (matches a w x) eqn:Em.
    + exists m1, (Some x), Left. split; [reflexivity|]. exists [], x, r.
      split; [reflexivity|]. split; [reflexivity|]. split; [exact Em|]. split; [intros q []|].
      split; [exact L1|]. split; [congruence|].
      intros q Hq. apply O1. intros Hi. apply Hq. cbn in *. rewrite in_app_iff in *. cbn. tauto.
    + rewrite (next_entry _ _ _ _ _ Hl). cbn [bnd].
      destruct (IH (d ++ [x]) fuel) as [m' [s [e [Ee Hres]]]];
        [rewrite <- app_assoc; exact Hl|lia|].
      exists m', s, e. split; [exact Ee|]. destruct e.
      * destruct Hres as [-> [-> Hn]]. split; [reflexivity|]. split; [reflexivity|].
        intros q [<-|Hq]; [exact Em|exact (Hn q Hq)].
      * destruct Hres as [r1 [y [r2 [-> [-> [My [N1 [L' [X' F']]]]]]]]].
        exists (x :: r1), y, r2. split; [reflexivity|]. split; [reflexivity|]. split; [exact My|].
        split; [intros q [<-|Hq]; [exact Em|exact (N1 q Hq)]|].
        rewrite <- app_assoc in L'. split; [exact L'|]. split; [exact X'|].
        intros q Hq. apply F'. rewrite <- app_assoc. exact Hq.
      * exact Hres.
Qed.

Theorem C73_get : forall m a count h l w fuel,
  is_list m h l -> (length l < fuel)%nat ->
  exists m' a' count' found, get_free_resource fuel m a count h w = Some (m', a', count', found) /\
    match found with
    | None => m' = m /\ a' = a /\ count' = count /\ forall q, In q l -> matches a w q = false
    | Some x => exists l1 l2, l = l1 ++ x :: l2 /\ matches a w x = true /\
        (forall q, In q l1 -> matches a w q = false) /\
        is_list m' h (l1 ++ l2) /\ alloc m' x /\ count' = count - 1 /\
        r_reused (a' x) = r_reused (a x) + 1 /\ r_name (a' x) = r_name (a x) /\
        (forall q, q <> x -> a' q = a q) /\
        (forall q, ~ In q (h :: l) -> m' q = m q)
    end.
Proof.
  intros m a count h l w fuel Hl Hf. unfold get_free_resource, for_each.
  rewrite (next_head _ _ _ Hl). cbn [bnd].
  destruct (get_search m a w h l [] fuel Hl Hf) as [m' [s [e [E Hres]]]]. rewrite E.
  destruct e; [| |destruct Hres].
  - destruct Hres as [-> [-> Hn]]. exists m, a, count, None.
    split; [reflexivity|]. split; [reflexivity|]. split; [reflexivity|]. split; [reflexivity|exact Hn].
  - destruct Hres as [l1 [x [l2 [-> [-> [Mx [N1 [L' [X' F']]]]]]]]].
    eexists _, _, _, (Some x). split; [reflexivity|]. exists l1, l2.
    split; [reflexivity|]. split; [exact Mx|]. split; [exact N1|]. split; [exact L'|].
    split; [exact X'|]. split; [reflexivity|].
    unfold set_fields. rewrite Z.eqb_refl. cbn [r_reused r_name].
    split; [reflexivity|]. split; [reflexivity|]. split; [|exact F'].
    intros q Hq. destruct (Z.eqb_spec q x); [contradiction|reflexivity].
Qed.

(* ---- every run ----

   The rest of the daemon may do what it likes with memory and fields outside
   the cache (env).  fuel bounds the loops; it is enough that it is more than
   FREE_RES_COUNT. *)
Definition untouched (h : Z) (m m' : mem) (a a' : fields) : Prop :=
  forall l, is_list m h l -> forall q, In q (h :: l) -> m' q = m q /\ a' q = a q.
Definition not_cached (h : Z) (m : mem) (x : Z) : Prop :=
  forall l, is_list m h l -> ~ In x (h :: l).

Inductive run (purges : bool) (fuel : nat) (h : Z) : mem -> fields -> Z -> Prop :=
| run_start : forall m0 m a, alloc m0 h -> list_init m0 h = Some m ->
    (forall q, 0 <= r_reused (a q)) -> run purges fuel h m a 0
| run_env : forall m a c m' a', run purges fuel h m a c -> untouched h m m' a a' ->
    (forall q, 0 <= r_reused (a' q)) -> run purges fuel h m' a' c
| run_free : forall m a c x m' c', run purges fuel h m a c -> alloc m x -> not_cached h m x ->
    free_resource fuel m a c h x = Some (m', c') -> run purges fuel h m' a c'
| run_get : forall m a c w m' a' c' f, run purges fuel h m a c ->
    get_free_resource fuel m a c h w = Some (m', a', c', f) -> run purges fuel h m' a' c'
| run_purge : forall m a c ls m' o, purges = true -> run purges fuel h m a c ->
    purge_resource_list fuel m a h ls = Some (m', o, Done) -> run purges fuel h m' a c.

(* the counter is the length of the list *)
Definition C73_statement : Prop := forall fuel h m a c l,
  (128 < fuel)%nat -> run true fuel h m a c -> is_list m h l -> c = Z.of_nat (length l).

Lemma run_pos : forall p fuel h m a c, run p fuel h m a c -> (128 < fuel)%nat ->
  (forall q, 0 <= r_reused (a q)) /\
  exists l, is_list m h l /\ Z.of_nat (length l) <= c <= FREE_RES_COUNT /\
    (p = false -> c = Z.of_nat (length l)).
Proof.
  intros p fuel h m a c H Hf.
  induction H as [m0 m a Ha Hi Hp|m a c m' a' _ IH Hu Hp|m a c x m' c' _ IH Ha Hn E
                 |m a c w m' a' c' f _ IH E|m a c ls m' o Ep _ IH E].
  - split; [exact Hp|]. exists []. destruct (list_init_spec m0 h Ha) as [m1 [E1 [L1 _]]].
    rewrite E1 in Hi. injection Hi as <-. split; [exact L1|]. unfold FREE_RES_COUNT. cbn. lia.
  - destruct IH as [_ [l [Hl Hc]]]. split; [exact Hp|]. exists l. split; [|exact Hc].
    apply (is_list_frame m); [exact Hl|]. intros q Hq. exact (proj1 (Hu l Hl q Hq)).
  - destruct IH as [Hp [l [Hl [Hc Heq]]]]. split; [exact Hp|].
    assert (Hlen : (length l < fuel)%nat) by (unfold FREE_RES_COUNT in Hc; lia).
    destruct (C73_free m a c h l x fuel Hl (Hn l Hl) Ha Hp Hlen) as [m1 [c1 [E1 [_ D]]]].
    rewrite E1 in E. injection E as <- <-.
    destruct D as [[D1 [-> D3]]|[[D1 [-> [-> D3]]]|[D1 [-> [l1 [v [l2 [-> [_ [D3 _]]]]]]]]]].
    + exists (x :: l). split; [exact D3|]. cbn [length]. unfold FREE_RES_COUNT in *.
      split; [lia|]. intros Hpf. specialize (Heq Hpf). lia.
    + exists [x]. split; [exact D3|]. cbn [length]. unfold FREE_RES_COUNT in *.
      split; [lia|]. intros Hpf. specialize (Heq Hpf). cbn [length] in Heq. lia.
    + exists (x :: l1 ++ l2). split; [exact D3|]. revert Hc Heq. cbn [length]. rewrite !app_length. cbn [length].
      unfold FREE_RES_COUNT in *. intros Hc Heq. split; [lia|]. intros Hpf. specialize (Heq Hpf). lia.
  - destruct IH as [Hp [l [Hl [Hc Heq]]]].
    assert (Hlen : (length l < fuel)%nat) by (unfold FREE_RES_COUNT in Hc; lia).
    destruct (C73_get m a c h l w fuel Hl Hlen) as [m1 [a1 [c1 [f1 [E1 D]]]]].
    rewrite E1 in E. injection E as <- <- <- <-. destruct f1 as [x|].
    + destruct D as [l1 [l2 [-> [_ [_ [L' [_ [-> [Er [_ [Eo _]]]]]]]]]]]. split.
      * intros q. destruct (Z.eq_dec q x) as [->|Hq]; [rewrite Er; specialize (Hp x); lia|].
        rewrite (Eo q Hq). apply Hp.
      * exists (l1 ++ l2). split; [exact L'|]. revert Hc Heq. rewrite !app_length. cbn [length].
        intros Hc Heq. split; [lia|]. intros Hpf. specialize (Heq Hpf). lia.
    + destruct D as [-> [-> [-> _]]]. split; [exact Hp|]. exists l. auto.
  - destruct IH as [Hp [l [Hl [Hc Heq]]]]. split; [exact Hp|].
    assert (Hlen : (length l < fuel)%nat) by (unfold FREE_RES_COUNT in Hc; lia).
    destruct (C72_purge m a h ls l fuel Hl Hlen) as [m1 [E1 [L1 _]]].
    rewrite E1 in E. injection E as <- <-.
    exists (filter (fun x => negb (r_ls (a x) =? ls)) l). split; [exact L1|].
    split; [|congruence].
    assert (le (length (filter (fun x => negb (r_ls (a x) =? ls)) l)) (length l)).
    { clear. induction l as [|x l IH]; cbn [filter length]; [lia|].
      destruct (negb (r_ls (a x) =? ls)); cbn [length]; lia. }
    lia.
Qed.

(* What holds of the counter: it is never less than the length, never more
   than 128, so the cache is bounded; and the cache stays a list - no
   structure on it has been freed, none is on it twice. *)
Theorem C73_partial : forall fuel h m a c, (128 < fuel)%nat -> run true fuel h m a c ->
  exists l, is_list m h l /\ (forall l', is_list m h l' -> l' = l) /\
    Z.of_nat (length l) <= c <= FREE_RES_COUNT.
Proof.
  intros fuel h m a c Hf H. destruct (run_pos _ _ _ _ _ _ H Hf) as [_ [l [Hl [Hc _]]]].
  exists l. split; [exact Hl|]. split; [|exact Hc]. intros l' Hl'. exact (is_list_unique _ _ _ _ Hl' Hl).
Qed.

(* as long as no lockspace is removed the counter is exact *)
Theorem C73_exact_partial : forall fuel h m a c l, (128 < fuel)%nat ->
  run false fuel h m a c -> is_list m h l -> c = Z.of_nat (length l).
Proof.
  intros fuel h m a c l Hf H Hl. destruct (run_pos _ _ _ _ _ _ H Hf) as [_ [l' [Hl' [_ Heq]]]].
  rewrite (is_list_unique _ _ _ _ Hl Hl'). exact (Heq eq_refl).
Qed.

(* no operation fails *)
Theorem C73_no_ub : forall fuel h m a c, (128 < fuel)%nat -> run true fuel h m a c ->
  (forall x, alloc m x -> not_cached h m x -> exists m' c', free_resource fuel m a c h x = Some (m', c')) /\
  (forall w, exists m' a' c' f, get_free_resource fuel m a c h w = Some (m', a', c', f)) /\
  (forall ls, exists m' o, purge_resource_list fuel m a h ls = Some (m', o, Done)).
Proof.
  intros fuel h m a c Hf H. destruct (run_pos _ _ _ _ _ _ H Hf) as [Hp [l [Hl [Hc _]]]].
  assert (Hlen : (length l < fuel)%nat) by (unfold FREE_RES_COUNT in Hc; lia).
  split; [|split].
  - intros x Ha Hn. destruct (C73_free m a c h l x fuel Hl (Hn l Hl) Ha Hp Hlen) as [m' [c' [E _]]].
    exists m', c'; exact E.
  - intros w. destruct (C73_get m a c h l w fuel Hl Hlen) as [m' [a' [c' [f [E _]]]]].
    exists m', a', c', f; exact E.
  - intros ls. destruct (C72_purge m a h ls l fuel Hl Hlen) as [m' [E _]]. eexists _, _; exact E.
Qed.

(* What the counter left too high does: after d structures were purged
   without being counted, the cache never again holds more than 128 - d (or
   one, if d is 128). *)
Inductive later (fuel : nat) (h : Z) : mem -> fields -> Z -> mem -> fields -> Z -> Prop :=
| later_refl : forall m a c, later fuel h m a c m a c
| later_step : forall m a c m1 a1 c1 m2 a2 c2, later fuel h m a c m1 a1 c1 ->
    (c2 = c1 /\ untouched h m1 m2 a1 a2 /\ (forall q, 0 <= r_reused (a2 q)) \/
     (exists x, alloc m1 x /\ not_cached h m1 x /\ a2 = a1 /\
        free_resource fuel m1 a1 c1 h x = Some (m2, c2)) \/
     (exists w f, get_free_resource fuel m1 a1 c1 h w = Some (m2, a2, c2, f)) \/
     (exists ls o, purge_resource_list fuel m1 a1 h ls = Some (m2, o, Done) /\ a2 = a1 /\ c2 = c1)) ->
    later fuel h m a c m2 a2 c2.

Lemma later_run : forall fuel h m a c m' a' c', later fuel h m a c m' a' c' ->
  run true fuel h m a c -> run true fuel h m' a' c'.
Proof.
  intros fuel h m a c m' a' c' H Hr.
  induction H as [|m a c m1 a1 c1 m2 a2 c2 _ IH Hs]; [exact Hr|]. specialize (IH Hr).
  destruct Hs as [[-> [Hu Hp]]|[[x [Ha [Hn [-> E]]]]|[[w [f E]]|[ls [o [E [-> ->]]]]]]].
  - exact (run_env _ _ _ _ _ _ _ _ IH Hu Hp).
  - exact (run_free _ _ _ _ _ _ _ _ _ IH Ha Hn E).
  - exact (run_get _ _ _ _ _ _ _ _ _ _ _ IH E).
  - exact (run_purge _ _ _ _ _ _ _ _ _ eq_refl IH E).
Qed.

Theorem C73_cache_shrinks : forall fuel h m a c l m' a' c' l' d,
  (128 < fuel)%nat -> run true fuel h m a c -> is_list m h l -> d <= c - Z.of_nat (length l) ->
  later fuel h m a c m' a' c' -> is_list m' h l' ->
  Z.of_nat (length l') <= Z.max 1 (FREE_RES_COUNT - d).
Proof.
  intros fuel h m a c l m' a' c' l' d Hf Hr Hl Hd Hlat Hl'.
  assert (G : exists k, is_list m' h k /\ Z.min d 127 <= c' - Z.of_nat (length k)).
  { clear l' Hl'. induction Hlat as [|m a c m1 a1 c1 m2 a2 c2 Hlat IH Hs]; [exists l; split; [exact Hl|lia]|].
    pose proof (later_run _ _ _ _ _ _ _ _ Hlat Hr) as Hr1.
    destruct (IH Hr Hl Hd) as [k [Hk Hkd]]. clear IH.
    destruct (run_pos _ _ _ _ _ _ Hr1 Hf) as [Hp [k' [Hk' [Hc _]]]].
    rewrite (is_list_unique _ _ _ _ Hk' Hk) in Hc. clear k' Hk'.
    assert (Hlen : (length k < fuel)%nat) by (unfold FREE_RES_COUNT in Hc; lia).
    destruct Hs as [[-> [Hu _]]|[[x [Ha [Hn [-> E]]]]|[[w [f E]]|[ls [o [E [-> ->]]]]]]].
    - exists k. split; [|exact Hkd]. apply (is_list_frame m1); [exact Hk|].
      intros q Hq. exact (proj1 (Hu k Hk q Hq)).
    - destruct (C73_free m1 a1 c1 h k x fuel Hk (Hn k Hk) Ha Hp Hlen) as [m3 [c3 [E3 [_ D]]]].
      rewrite E3 in E. injection E as <- <-.
      destruct D as [[D1 [-> D3]]|[[D1 [-> [-> D3]]]|[D1 [-> [l1 [v [l2 [-> [_ [D3 _]]]]]]]]]].
      + exists (x :: k). split; [exact D3|]. cbn [length]. lia.
      + exists [x]. split; [exact D3|]. cbn [length]. unfold FREE_RES_COUNT in *. lia.
      + exists (x :: l1 ++ l2). split; [exact D3|]. revert Hkd. cbn [length]. rewrite !app_length. cbn [length]. lia.
    - destruct (C73_get m1 a1 c1 h k w fuel Hk Hlen) as [m3 [a3 [c3 [f3 [E3 D]]]]].
      rewrite E3 in E. injection E as <- <- <- <-. destruct f3 as [x|].
      + destruct D as [l1 [l2 [-> [_ [_ [L' [_ [-> _]]]]]]]].
        exists (l1 ++ l2). split; [exact L'|]. revert Hkd. rewrite !app_length. cbn [length]. lia.
      + destruct D as [-> [-> [-> _]]]. exists k. split; assumption.
    - destruct (C72_purge m1 a1 h ls k fuel Hk Hlen) as [m3 [E3 [L3 _]]].
      rewrite E3 in E. injection E as <- <-.
      exists (filter (fun x => negb (r_ls (a1 x) =? ls)) k). split; [exact L3|].
      assert (le (length (filter (fun x => negb (r_ls (a1 x) =? ls)) k)) (length k)).
      { clear. induction k as [|x k IH]; cbn [filter length]; [lia|].
        destruct (negb (r_ls (a1 x) =? ls)); cbn [length]; lia. }
      lia. }
  destruct G as [k [Hk Hkd]]. rewrite (is_list_unique _ _ _ _ Hl' Hk).
  destruct (run_pos _ _ _ _ _ _ (later_run _ _ _ _ _ _ _ _ Hlat Hr) Hf) as [_ [k' [_ [Hc _]]]].
  unfold FREE_RES_COUNT in *. lia.
Qed.

(* Two structures are given back, then their lockspace is removed: the list is
   empty and the counter says two. *)
Definition start_mem : mem := fun q =>
  if q =? 1 then Some (0, 0) else if q =? 10 then Some (0, 0) else if q =? 20 then Some (0, 0) else None.
Definition start_fields : fields := fun q => Res 7 q 1 5 0 false.

Example C73_nonvacuous : exists m, run true 129 1 m start_fields 2 /\ is_list m 1 [].
Proof.
  destruct (list_init_spec start_mem 1) as [m0 [E0 [L0 [A0 _]]]]; [cbv; discriminate|].
  assert (R0 : run true 129 1 m0 start_fields 0).
  { apply (run_start true 129 1 start_mem); [cbv; discriminate|exact E0|intros q; cbn; lia]. }
  assert (Hp : forall q, 0 <= r_reused (start_fields q)) by (intros q; cbn; lia).
  assert (N0 : forall x, x <> 1 -> not_cached 1 m0 x).
  { intros x Hx l Hl. rewrite (is_list_unique _ _ _ _ Hl L0). cbn. intros [H|[]]. congruence. }
  assert (Al : forall x, start_mem x <> None -> alloc m0 x) by (intros x; exact (same_alloc_alloc _ _ x A0)).
  destruct (list_add_spec m0 1 [] 10 L0 ltac:(cbn; intuition discriminate) (Al 10 ltac:(cbv; discriminate)))
    as [m1 [E1 [L1 [A1 _]]]].
  assert (R1 : run true 129 1 m1 start_fields 1).
  { apply (run_free true 129 1 m0 start_fields 0 10); [exact R0|apply Al; cbv; discriminate|apply N0; discriminate|].
    unfold free_resource. cbn [Z.ltb Z.compare FREE_RES_COUNT]. rewrite E1. reflexivity. }
  destruct (list_add_spec m1 1 [10] 20 L1 ltac:(cbn; intuition discriminate)
              (same_alloc_alloc _ _ _ A1 (Al 20 ltac:(cbv; discriminate)))) as [m2 [E2 [L2 _]]].
  assert (R2 : run true 129 1 m2 start_fields 2).
  { apply (run_free true 129 1 m1 start_fields 1 20); [exact R1| | |].
    - exact (same_alloc_alloc _ _ _ A1 (Al 20 ltac:(cbv; discriminate))).
    - intros l Hl. rewrite (is_list_unique _ _ _ _ Hl L1). cbn. intuition discriminate.
    - unfold free_resource. cbn [Z.ltb Z.compare FREE_RES_COUNT]. rewrite E2. reflexivity. }
  destruct (C72_purge m2 start_fields 1 7 _ 129 L2 ltac:(cbn; lia)) as [m3 [E3 [L3 _]]].
  exists m3. split; [|exact L3]. exact (run_purge _ _ _ _ _ _ _ _ _ eq_refl R2 E3).
Qed.

Theorem C73_refuted : ~ C73_statement.
Proof.
  intros H. destruct C73_nonvacuous as [m [R L]].
  specialize (H 129%nat 1 m start_fields 2 [] ltac:(lia) R L). discriminate.
Qed.

Print Assumptions C73_free.
Print Assumptions C73_get.
Print Assumptions C73_refuted.
Print Assumptions C73_partial.
Print Assumptions C73_exact_partial.
Print Assumptions C73_no_ub.
Print Assumptions C73_cache_shrinks.
