(* The history of renewals of a host lease kept in memory and reported to clients.
   Models src/lockspace.c:622-657 and src/cmd.c:2766-2850.
   Not modelled: the int overflow of the counters, the text form of a record. *)
From Coq Require Import List Arith Lia Bool.
Import ListNotations.

(* src/sanlock_internal.h:185-191 *)
Record hrec := mkH { h_ts : nat; h_rd : nat; h_wr : nat; h_to : nat; h_err : nat }.
Definition h0 : hrec := mkH 0 0 0 0 0.

(* src/sanlock_internal.h:229-232 *)
Record hist := mkHist { hi_buf : list hrec; hi_next : nat; hi_prev : nat }.

(* src/lockspace.c:1088-1094 *)
Definition hist_init (n : nat) : hist := mkHist (repeat h0 n) 0 0.

(* the results of one renewal attempt *)
Inductive rev := ROk (ts rd wr : nat) | RTimeout | RError.

Fixpoint mod_nth (l : list hrec) (i : nat) (f : hrec -> hrec) : list hrec :=
  match l, i with [], _ => [] | x :: r, O => f x :: r | x :: r, S j => x :: mod_nth r j f end.

(* src/lockspace.c:632-659; the counters of the overwritten record are left as they are *)
Definition save (s : hist) (e : rev) : hist :=
  match e with
  | ROk ts rd wr =>
      let b := mod_nth (hi_buf s) (hi_next s) (fun h => mkH ts rd wr (h_to h) (h_err h)) in
      mkHist b (if Nat.leb (length (hi_buf s)) (S (hi_next s)) then 0 else S (hi_next s)) (hi_next s)
  | RTimeout => mkHist (mod_nth (hi_buf s) (hi_prev s) (fun h => mkH (h_ts h) (h_rd h) (h_wr h) (S (h_to h)) (h_err h))) (hi_next s) (hi_prev s)
  | RError => mkHist (mod_nth (hi_buf s) (hi_prev s) (fun h => mkH (h_ts h) (h_rd h) (h_wr h) (h_to h) (S (h_err h)))) (hi_next s) (hi_prev s)
  end.

(* src/cmd.c:2824-2845 *)
Definition report (s : hist) : list hrec :=
  if Nat.eqb (length (hi_buf s)) 0 || (Nat.eqb (hi_prev s) 0 && Nat.eqb (hi_next s) 0) then []
  else (if Nat.eqb (h_ts (nth (hi_next s) (hi_buf s) h0)) 0 then [] else skipn (hi_next s) (hi_buf s))
       ++ firstn (hi_next s) (hi_buf s).

Definition saves (s : hist) (es : list rev) : hist := fold_left save es s.

(* ---------------- proofs ---------------- *)
Lemma mod_nth_length l i f : length (mod_nth l i f) = length l.
Proof. revert i; induction l; intros [|i]; cbn; auto. Qed.

Lemma mod_nth_app a x b f : mod_nth (a ++ x :: b) (length a) f = a ++ f x :: b.
Proof. induction a; cbn; congruence. Qed.

(* the ring seen as the list of the records kept, oldest first: [l] *)
Inductive ring (n : nat) : hist -> list hrec -> Prop :=
| ring_part : forall l free nx pv,
    l <> [] -> length free <> 0 -> length l + length free = n -> Forall (fun h => h_ts h <> 0) l ->
    Forall (fun h => h = h0) free -> nx = length l -> S pv = length l ->
    ring n (mkHist (l ++ free) nx pv) l
| ring_full : forall a b pv,
    b <> [] -> length a + length b = n -> Forall (fun h => h_ts h <> 0) (a ++ b) ->
    pv = (if Nat.eqb (length a) 0 then n - 1 else length a - 1) ->
    ring n (mkHist (a ++ b) (length a) pv) (b ++ a).

Lemma ring_report n s l : 2 <= n -> ring n s l -> report s = l.
Proof.
  intros N [l' free nx pv NE NF L T Z -> P|a b pv NB L T ->]; unfold report; cbn [hi_buf hi_next hi_prev]; rewrite app_length.
  - destruct free as [|z free]; [contradiction NF; reflexivity|].
    destruct (length l') eqn:E; [destruct l'; [congruence|discriminate]|].
    rewrite andb_false_r, orb_false_r. cbn [Nat.add Nat.eqb].
    rewrite <- E. rewrite app_nth2, Nat.sub_diag by lia. cbn [nth]. inversion Z; subst. cbn [h0 h_ts Nat.eqb app].
    rewrite firstn_app, firstn_all, Nat.sub_diag, firstn_O, app_nil_r. reflexivity.
  - destruct (Nat.eqb_spec (length a + length b) 0); [lia|]. cbn [orb].
    assert ((if Nat.eqb (length a) 0 then n - 1 else length a - 1) =? 0 = true -> length a <> 0) as K.
    { destruct (Nat.eqb_spec (length a) 0); auto. intros H. apply Nat.eqb_eq in H. lia. }
    destruct (_ =? 0) eqn:E; [specialize (K eq_refl)|]; (destruct (Nat.eqb_spec (length a) 0); [lia || idtac|]); cbn [andb];
      rewrite ?andb_false_r; try (exfalso; lia);
      rewrite app_nth2, Nat.sub_diag by lia; (destruct b as [|x b]; [congruence|]);
      apply Forall_app in T; destruct T as [_ T]; inversion T as [|? ? T1 T2]; subst; cbn [nth];
      (destruct (Nat.eqb_spec (h_ts x) 0); [contradiction|]);
      rewrite skipn_app, skipn_all, Nat.sub_diag, firstn_app, firstn_all, Nat.sub_diag, firstn_O, app_nil_r; reflexivity.
Qed.

Definition set_rec (ts rd wr : nat) (h : hrec) : hrec := mkH ts rd wr (h_to h) (h_err h).
Definition bump (e : rev) (h : hrec) : hrec :=
  match e with
  | ROk _ _ _ => h
  | RTimeout => mkH (h_ts h) (h_rd h) (h_wr h) (S (h_to h)) (h_err h)
  | RError => mkH (h_ts h) (h_rd h) (h_wr h) (h_to h) (S (h_err h))
  end.
Definition is_ok (e : rev) : bool := match e with ROk _ _ _ => true | _ => false end.

(* a new record, not yet full *)
Lemma ring_ok_part n l free pv ts rd wr :
  2 <= n -> ts <> 0 -> l <> [] -> length free <> 0 -> length l + length free = n -> Forall (fun h => h_ts h <> 0) l ->
  Forall (fun h => h = h0) free -> S pv = length l ->
  ring n (save (mkHist (l ++ free) (length l) pv) (ROk ts rd wr)) (l ++ [mkH ts rd wr 0 0]).
Proof.
  intros N T NE NF L TS Z P. destruct free as [|z free]; [contradiction NF; reflexivity|].
  inversion Z; subst. cbn [save hi_buf hi_next hi_prev]. rewrite mod_nth_app. cbn [h0 h_to h_err].
  rewrite app_length. cbn [length]. destruct (Nat.leb_spec (length l + S (length free)) (S (length l))).
  - assert (free = []) as -> by (destruct free; cbn in *; auto; lia).
    assert (ring (length l + length [h0]) (mkHist ([] ++ (l ++ [mkH ts rd wr 0 0])) (length (@nil hrec)) (length l)) ((l ++ [mkH ts rd wr 0 0]) ++ [])) as R.
    { apply ring_full; cbn [app length Nat.eqb Nat.add].
      - destruct l; discriminate.
      - rewrite app_length. reflexivity.
      - apply Forall_app. split; auto.
      - lia. }
    rewrite app_nil_r in R. exact R.
  - change (l ++ mkH ts rd wr 0 0 :: free) with (l ++ [mkH ts rd wr 0 0] ++ free). rewrite app_assoc.
    apply ring_part; rewrite ?app_length; cbn [length]; try lia.
    + destruct l; discriminate.
    + apply Forall_app; split; auto.
    + assumption.
Qed.

Lemma ring_ok_full n a x b pv ts rd wr :
  ts <> 0 -> length a + length (x :: b) = n -> Forall (fun h => h_ts h <> 0) (a ++ x :: b) ->
  ring n (save (mkHist (a ++ x :: b) (length a) pv) (ROk ts rd wr)) (b ++ a ++ [set_rec ts rd wr x]).
Proof.
  intros T L TS. cbn [save hi_buf hi_next hi_prev]. rewrite mod_nth_app. fold (set_rec ts rd wr x).
  rewrite app_length. apply Forall_app in TS. destruct TS as [T1 T2]. inversion T2; subst.
  cbn [length]. destruct (Nat.leb_spec (length a + S (length b)) (S (length a))).
  - assert (b = []) as -> by (destruct b; cbn in *; auto; lia).
    assert (ring (length a + length [x]) (mkHist ([] ++ (a ++ [set_rec ts rd wr x])) (length (@nil hrec)) (length a)) ((a ++ [set_rec ts rd wr x]) ++ [])) as R.
    { apply ring_full; cbn [app length Nat.eqb Nat.add].
      - destruct a; discriminate.
      - rewrite app_length. reflexivity.
      - apply Forall_app. split; auto.
      - lia. }
    rewrite app_nil_r in R. exact R.
  - change (a ++ set_rec ts rd wr x :: b) with (a ++ [set_rec ts rd wr x] ++ b). rewrite app_assoc.
    replace (S (length a)) with (length (a ++ [set_rec ts rd wr x])) by (rewrite app_length; cbn; lia).
    apply ring_full.
    + destruct b; [cbn in *; lia|discriminate].
    + rewrite app_length. cbn. lia.
    + rewrite <- app_assoc. apply Forall_app; split; auto. apply Forall_app; split; auto.
    + rewrite app_length. cbn. destruct (Nat.eqb_spec (length a + 1) 0); lia.
Qed.

Lemma bump_save s e : is_ok e = false -> save s e = mkHist (mod_nth (hi_buf s) (hi_prev s) (bump e)) (hi_next s) (hi_prev s).
Proof. destruct e; try discriminate; reflexivity. Qed.

Lemma bump_ts e h : h_ts (bump e h) = h_ts h.
Proof. destruct e; reflexivity. Qed.

(* a failure is counted in the newest record *)
Lemma ring_bump n s l x e : is_ok e = false -> ring n s (l ++ [x]) -> ring n (save s e) (l ++ [bump e x]).
Proof.
  intros F R. rewrite bump_save by exact F. remember (l ++ [x]) as lx eqn:LX.
  destruct R as [l' free nx pv NE NF L T Z -> P|a b pv NB L T ->]; cbn [hi_buf hi_next hi_prev].
  - subst l'. rewrite app_length in *. cbn [length] in *.
    assert (pv = length l) as -> by lia. rewrite <- app_assoc. cbn [app].
    rewrite mod_nth_app. change (l ++ bump e x :: free) with (l ++ [bump e x] ++ free). rewrite app_assoc.
    apply ring_part; rewrite ?app_length; cbn [length]; auto; try lia.
    + destruct l; discriminate.
    + apply Forall_app in T. destruct T as [T1 T2]. apply Forall_app; split; auto. inversion T2; subst.
      constructor; auto. rewrite bump_ts. auto.
  - destruct (Nat.eqb_spec (length a) 0) as [A|A].
    + destruct a; [|discriminate]. cbn [app length] in *. rewrite app_nil_r in LX. subst b.
      rewrite app_length in L. cbn [length] in L. replace (n - 1) with (length l) by lia.
      rewrite mod_nth_app.
      assert (ring n (mkHist ([] ++ (l ++ [bump e x])) (length (@nil hrec)) (length l)) ((l ++ [bump e x]) ++ [])) as R.
      { apply ring_full; cbn [app length Nat.eqb Nat.add].
        - destruct l; discriminate.
        - rewrite app_length. cbn. lia.
        - apply Forall_app in T. destruct T as [T1 T2]. apply Forall_app; split; auto. inversion T2; subst.
          constructor; auto. rewrite bump_ts. auto.
        - lia. }
      rewrite app_nil_r in R. exact R.
    + destruct (exists_last (l := a)) as (a' & y & ->); [destruct a; [contradiction A; reflexivity|discriminate]|].
      rewrite app_assoc in LX. apply app_inj_tail in LX. destruct LX as [<- <-].
      rewrite !app_length in *. cbn [length] in *. rewrite <- app_assoc. cbn [app].
      replace (length a' + 1 - 1) with (length a') by lia. rewrite mod_nth_app.
      change (a' ++ bump e y :: b) with (a' ++ [bump e y] ++ b). rewrite app_assoc.
      replace (length a' + 1) with (length (a' ++ [bump e y])) by (rewrite app_length; reflexivity).
      rewrite <- (app_assoc b a' [bump e y]). apply ring_full; auto.
      * rewrite app_length. cbn. lia.
      * rewrite <- app_assoc in T |- *. apply Forall_app in T. destruct T as [T1 T2]. apply Forall_app; split; auto.
        cbn [app] in *. inversion T2; subst. constructor; auto. rewrite bump_ts. auto.
      * rewrite app_length. cbn. destruct (Nat.eqb_spec (length a' + 1) 0); lia.
Qed.
