(* C52: the log dump holds the most recent bytes logged, in order. *)
From Coq Require Import List NArith Arith Lia Bool ZifyBool ZifyNat.
From Verif Require Import LogRing C38.
Import ListNotations.

(* ---------------- specification ---------------- *)
Definition last_bytes (size : nat) (stream : list N) : list N := skipn (length stream - size) stream.
(* For every size of the dump and every sequence of lines no write leaves the
   buffer, and the copy sent to a client is the last [size] bytes logged (all of
   them if fewer). *)
Definition C52_statement : Prop := forall size logged, 1 <= size ->
  exists d, save_dumps (dump_init size) logged = Some d /\ copy_log_dump d = last_bytes size (concat logged).

(* ---------------- invariant ---------------- *)
Definition DInv (size : nat) (stream : list N) (d : dump) : Prop :=
  length (dp_buf d) = size /\ dp_point d < size /\
  (if dp_wrap d then size <= length stream /\ skipn (dp_point d) (dp_buf d) ++ firstn (dp_point d) (dp_buf d) = last_bytes size stream
   else length stream = dp_point d /\ firstn (dp_point d) (dp_buf d) = stream).

Lemma set_split : forall (b : list N) p c, p < length b -> list_set b p c = firstn p b ++ c :: skipn (S p) b.
Proof. induction b as [|y b IH]; intros [|p] c L; cbn in *; try lia; [reflexivity|]. rewrite IH by lia. reflexivity. Qed.
Lemma skipn_cons : forall (b : list N) p, p < length b -> exists x, skipn p b = x :: skipn (S p) b.
Proof. induction b as [|y b IH]; intros [|p] L; cbn in *; try lia; [eexists; reflexivity|]. apply IH. lia. Qed.

Lemma last_snoc : forall size l c x r, last_bytes size l = x :: r -> 1 <= size <= length l ->
  last_bytes size (l ++ [c]) = r ++ [c].
Proof.
  intros size l c x r E L. unfold last_bytes in *. rewrite app_length. cbn [length].
  replace (length l + 1 - size) with (S (length l - size)) by lia. rewrite skipn_app.
  replace (S (length l - size) - length l) with 0 by lia. change (skipn 0 [c]) with [c]. f_equal.
  destruct (skipn_cons l (length l - size) ltac:(lia)) as (y & Y). rewrite Y in E. congruence.
Qed.

Lemma put_byte_inv : forall size st d c, DInv size st d -> exists d', put_byte d c = Some d' /\ DInv size (st ++ [c]) d'.
Proof.
  intros size st d c (LB & LP & C). unfold put_byte. rewrite LB.
  assert (Nat.ltb (dp_point d) size = true) as -> by (apply Nat.ltb_lt; exact LP).
  eexists. split; [reflexivity|]. unfold dump_wrap_check.
  assert (FS : firstn (S (dp_point d)) (list_set (dp_buf d) (dp_point d) c) = firstn (dp_point d) (dp_buf d) ++ [c]).
  { rewrite set_split by lia. rewrite firstn_app, firstn_firstn, firstn_length.
    replace (min (S (dp_point d)) (dp_point d)) with (dp_point d) by lia.
    replace (S (dp_point d) - min (dp_point d) (length (dp_buf d))) with 1 by lia. reflexivity. }
  assert (SS : skipn (S (dp_point d)) (list_set (dp_buf d) (dp_point d) c) = skipn (S (dp_point d)) (dp_buf d)).
  { rewrite set_split by lia. rewrite skipn_app, firstn_length.
    rewrite skipn_all2 by (rewrite firstn_length; lia).
    replace (S (dp_point d) - min (dp_point d) (length (dp_buf d))) with 1 by lia. reflexivity. }
  destruct (Nat.eqb (S (dp_point d)) size) eqn:EW.
  - apply Nat.eqb_eq in EW. unfold DInv. cbn [dp_buf dp_point dp_wrap]. rewrite list_set_length.
    split; [exact LB|]. split; [lia|]. cbn [skipn firstn]. rewrite app_nil_r, app_length. cbn [length].
    assert (FA : list_set (dp_buf d) (dp_point d) c = firstn (dp_point d) (dp_buf d) ++ [c]).
    { rewrite <- FS. rewrite firstn_all2; [reflexivity|]. rewrite list_set_length. lia. }
    rewrite FA. destruct (dp_wrap d).
    + destruct C as (C1 & C2). split; [lia|]. destruct (skipn_cons (dp_buf d) (dp_point d) ltac:(lia)) as (x & X).
      rewrite X in C2. rewrite skipn_all2 in C2 by lia. cbn [app] in C2. symmetry.
      apply (last_snoc size st c x); [congruence|lia].
    + destruct C as (C1 & C2). split; [lia|]. unfold last_bytes. rewrite app_length. cbn [length].
      replace (length st + 1 - size) with 0 by lia. cbn [skipn]. rewrite C2. reflexivity.
  - apply Nat.eqb_neq in EW. unfold DInv. cbn [dp_buf dp_point dp_wrap]. rewrite list_set_length.
    split; [exact LB|]. split; [lia|]. destruct (dp_wrap d).
    + destruct C as (C1 & C2). rewrite app_length. split; [lia|]. rewrite FS, SS.
      destruct (skipn_cons (dp_buf d) (dp_point d) ltac:(lia)) as (x & X).
      rewrite X in C2. cbn [app] in C2. rewrite app_assoc. symmetry.
      apply (last_snoc size st c x); [congruence|lia].
    + destruct C as (C1 & C2). rewrite app_length. cbn [length]. split; [lia|]. rewrite FS, C2. reflexivity.
Qed.

Lemma put_bytes_inv : forall size s st d, DInv size st d -> exists d', put_bytes d s = Some d' /\ DInv size (st ++ s) d'.
Proof.
  intros size s. induction s as [|c r IH]; intros st d I; cbn [put_bytes].
  - exists d. rewrite app_nil_r. auto.
  - destruct (put_byte_inv size st d c I) as (d1 & -> & I1). destruct (IH _ _ I1) as (d2 & E & I2).
    exists d2. rewrite <- app_assoc in I2. auto.
Qed.

(* the memcpy branch stores the same bytes *)
Lemma skipn_skipn' : forall (l : list N) a b, skipn a (skipn b l) = skipn (b + a) l.
Proof. induction l as [|x l IH]; intros a [|b]; cbn; rewrite ?skipn_nil; auto. Qed.
Lemma copy_is_put : forall s b p w, p + length s < length b ->
  put_bytes (mkDump b p w) s = Some (mkDump (copy_in b p s) (p + length s) w).
Proof.
  induction s as [|c r IH]; intros b p w L; cbn [put_bytes length] in *.
  - unfold copy_in. cbn [length app]. rewrite Nat.add_0_r, firstn_skipn. reflexivity.
  - unfold put_byte. cbn [dp_point dp_buf dp_wrap]. assert (Nat.ltb p (length b) = true) as -> by (apply Nat.ltb_lt; lia).
    unfold dump_wrap_check. assert (Nat.eqb (S p) (length b) = false) as -> by (apply Nat.eqb_neq; lia).
    rewrite IH by (rewrite list_set_length; lia).
    assert (CE : copy_in (list_set b p c) (S p) r = copy_in b p (c :: r)).
    { unfold copy_in. cbn [length]. rewrite set_split by lia.
      rewrite firstn_app, firstn_firstn, firstn_length. replace (min (S p) p) with p by lia.
      replace (S p - min p (length b)) with 1 by lia. cbn [firstn]. rewrite <- app_assoc. cbn [app]. do 3 f_equal.
      rewrite skipn_app, firstn_length. rewrite skipn_all2 by (rewrite firstn_length; lia). cbn [app].
      replace (S p + length r - min p (length b)) with (S (length r)) by lia. cbn [skipn].
      change (skipn (length r) (skipn (S p) b) = skipn (p + S (length r)) b).
      rewrite skipn_skipn'. f_equal. lia. }
    rewrite CE. do 2 f_equal. lia.
Qed.

Lemma save_dump_inv : forall size s st d, DInv size st d -> exists d', log_save_dump d s = Some d' /\ DInv size (st ++ s) d'.
Proof.
  intros size s st d I. pose proof (put_bytes_inv size s st d I) as (d' & E & I'). pose proof I as (LB & LP & _).
  exists d'. split; [|exact I']. unfold log_save_dump. rewrite LB. destruct (Nat.ltb (length s) (size - dp_point d)) eqn:EL; [|exact E].
  apply Nat.ltb_lt in EL. assert (Nat.leb (dp_point d + length s) size = true) as -> by (apply Nat.leb_le; lia).
  unfold dump_wrap_check. assert (Nat.eqb (dp_point d + length s) size = false) as -> by (apply Nat.eqb_neq; lia).
  destruct d as [b p w]. cbn [dp_point dp_buf dp_wrap] in *. rewrite copy_is_put in E by lia. exact E.
Qed.

Lemma save_dumps_inv : forall size l st d, DInv size st d -> exists d', save_dumps d l = Some d' /\ DInv size (st ++ concat l) d'.
Proof.
  intros size l. induction l as [|s l IH]; intros st d I; cbn [save_dumps concat].
  - exists d. rewrite app_nil_r. auto.
  - destruct (save_dump_inv size s st d I) as (d1 & -> & I1). destruct (IH _ _ I1) as (d2 & E & I2).
    exists d2. rewrite <- app_assoc in I2. auto.
Qed.
Lemma dinv_init : forall size, 1 <= size -> DInv size [] (dump_init size).
Proof. intros size L. unfold DInv, dump_init. cbn. rewrite repeat_length. repeat split; lia. Qed.

(* ---------------- theorems ---------------- *)
(* No write leaves the buffer, whatever is logged; with [size] bytes or more the
   dump is exactly the last [size] of them; with fewer it is all but the last. *)
Theorem C52_dump_partial : forall size logged, 1 <= size ->
  exists d, save_dumps (dump_init size) logged = Some d /\
    (size <= length (concat logged) -> copy_log_dump d = last_bytes size (concat logged)) /\
    (length (concat logged) < size -> copy_log_dump d = removelast (concat logged)).
Proof.
  intros size logged L. destruct (save_dumps_inv size logged [] _ (dinv_init size L)) as (d & E & I).
  exists d. split; [exact E|]. cbn [app] in I. destruct I as (LB & LP & C). unfold copy_log_dump.
  destruct (dp_wrap d); cbn [negb andb].
  - destruct C as (C1 & C2). split; [intros _; exact C2|intros L2; lia].
  - destruct C as (C1 & C2). split; [intros L2; lia|]. intros _.
    destruct (Nat.eqb (dp_point d) 0) eqn:EZ.
    + apply Nat.eqb_eq in EZ. rewrite EZ in C2. cbn in C2. rewrite <- C2. reflexivity.
    + apply Nat.eqb_neq in EZ. rewrite <- C2.
      replace (dp_point d) with (S (dp_point d - 1)) at 2 by lia. symmetry. apply removelast_firstn. lia.
Qed.

(* A formatted line always fits its 512 byte buffer: 20 characters of time and at
   most 83 of prefix are followed by a text of any length. *)
Theorem C52_line_fits : forall a b ret, a <= 20 -> b <= 83 ->
  exists pos, log_line_pos a b ret = Some pos /\ pos <= 511.
Proof.
  intros a b ret A B. unfold log_line_pos, LOG_STR_LEN. cbn zeta.
  destruct (Nat.leb (512 - 2 - (a + b)) ret) eqn:E; [eexists; split; [reflexivity|lia]|].
  apply Nat.leb_gt in E. destruct (Nat.leb 512 (S (a + b + ret))) eqn:E2; [apply Nat.leb_le in E2; lia|].
  eexists. split; [reflexivity|lia].
Qed.

(* ---------------- the full statement fails ---------------- *)
(* before the first wrap the last byte is missing *)
Theorem C52_refuted : ~ C52_statement.
Proof.
  intros H. destruct (H 8 [[1%N; 2%N]] ltac:(lia)) as (d & E & C). vm_compute in E. injection E as <-. vm_compute in C. discriminate C.
Qed.

(* ---------------- hypotheses can be met ---------------- *)
Example C52_nonvacuous : exists d, save_dumps (dump_init 5) [[1; 2; 3]; [4; 5; 6; 7]]%N = Some d /\
  copy_log_dump d = [3; 4; 5; 6; 7]%N.
Proof. eexists. split; vm_compute; reflexivity. Qed.

Print Assumptions C52_dump_partial.
Print Assumptions C52_line_fits.
Print Assumptions C52_refuted.
