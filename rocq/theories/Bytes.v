(* Byte buffers.
   A C buffer is a list of byte values (N, each < 256).  [get]/[put] model
   reading and writing a struct member that occupies [n] bytes at a fixed
   offset.  Used to model memory that is copied to and from disk sectors. *)
From Coq Require Import List NArith ZArith Lia Bool Arith.
Import ListNotations.

Notation byte := N.
Notation bytes := (list N).

Definition is_byte (b : N) : Prop := (b < 256)%N.
Definition all_bytes (l : bytes) : Prop := Forall is_byte l.

(* member access at offset [off], [n] bytes *)
Definition get (off n : nat) (buf : bytes) : bytes := firstn n (skipn off buf).

(* store [bs] at offset [off] *)
Definition put (off : nat) (bs buf : bytes) : bytes :=
  firstn off buf ++ bs ++ skipn (off + length bs) buf.

(* little endian encoding in [n] bytes / decoding.
   cpu_to_leXX / leXX_to_cpu (src/ondisk.c:8-19 uses <endian.h>/byteswap):
   whatever the host endianness, the bytes in memory after cpu_to_leXX are
   the little endian ones. *)
Fixpoint le_enc (n : nat) (v : N) : bytes :=
  match n with
  | O => []
  | S n' => (v mod 256)%N :: le_enc n' (v / 256)%N
  end.

Fixpoint le_dec (l : bytes) : N :=
  match l with
  | [] => 0%N
  | b :: r => (b + 256 * le_dec r)%N
  end.

Lemma le_enc_length n v : length (le_enc n v) = n.
Proof. revert v; induction n; intros; cbn [le_enc length]; auto. Qed.

Lemma le_enc_bytes n v : all_bytes (le_enc n v).
Proof.
  revert v; induction n; intros; constructor; auto.
  apply N.mod_lt; lia.
  apply IHn.
Qed.

Lemma le_dec_enc n v : le_dec (le_enc n v) = (v mod 256 ^ N.of_nat n)%N.
Proof.
  revert v; induction n; intros v.
  - cbn. rewrite N.mod_1_r. reflexivity.
  - cbn [le_enc le_dec]. rewrite IHn.
    replace (N.of_nat (S n)) with (N.succ (N.of_nat n)) by lia.
    rewrite N.pow_succ_r'.
    rewrite N.mod_mul_r by (try apply N.pow_nonzero; lia).
    lia.
Qed.

Lemma le_dec_enc_small n v : (v < 256 ^ N.of_nat n)%N -> le_dec (le_enc n v) = v.
Proof. intros. rewrite le_dec_enc. apply N.mod_small; auto. Qed.

Lemma le_enc_dec l : all_bytes l -> le_enc (length l) (le_dec l) = l.
Proof.
  induction 1 as [|b l Hb Hl IH]; cbn [le_dec length le_enc]; auto.
  unfold is_byte in Hb.
  f_equal.
  - rewrite N.mul_comm, N.mod_add by lia. apply N.mod_small; auto.
  - rewrite N.mul_comm, N.div_add by lia. rewrite N.div_small by auto. exact IH.
Qed.

Lemma le_enc_inj n a b :
  (a < 256 ^ N.of_nat n)%N -> (b < 256 ^ N.of_nat n)%N ->
  le_enc n a = le_enc n b -> a = b.
Proof.
  intros Ha Hb H.
  rewrite <- (le_dec_enc_small n a Ha), <- (le_dec_enc_small n b Hb), H; auto.
Qed.

Lemma get_length off n buf : off + n <= length buf -> length (get off n buf) = n.
Proof. intros. unfold get. rewrite firstn_length, skipn_length. lia. Qed.

Lemma put_length off bs buf :
  off + length bs <= length buf -> length (put off bs buf) = length buf.
Proof.
  intros. unfold put. rewrite !app_length, firstn_length, skipn_length. lia.
Qed.

Lemma get_put_same off bs buf :
  off + length bs <= length buf -> get off (length bs) (put off bs buf) = bs.
Proof.
  intros. unfold get, put.
  rewrite skipn_app, firstn_length, Nat.min_l by lia.
  rewrite skipn_all2 by (rewrite firstn_length; lia).
  rewrite Nat.sub_diag. cbn [skipn app].
  rewrite firstn_app, firstn_all, Nat.sub_diag. cbn. apply app_nil_r.
Qed.

Lemma nth_error_put off bs buf i :
  off + length bs <= length buf ->
  nth_error (put off bs buf) i =
    if (off <=? i) && (i <? off + length bs) then nth_error bs (i - off)
    else nth_error buf i.
Proof.
  intros H. unfold put.
  destruct (off <=? i) eqn:E1; cbn [andb].
  - apply Nat.leb_le in E1.
    rewrite nth_error_app2 by (rewrite firstn_length; lia).
    rewrite firstn_length, Nat.min_l by lia.
    destruct (i <? off + length bs) eqn:E2.
    + apply Nat.ltb_lt in E2. rewrite nth_error_app1 by lia. auto.
    + apply Nat.ltb_ge in E2. rewrite nth_error_app2 by lia.
      rewrite <- (firstn_skipn (off + length bs) buf) at 2.
      rewrite nth_error_app2 by (rewrite firstn_length; lia).
      f_equal. rewrite firstn_length. lia.
  - apply Nat.leb_gt in E1.
    rewrite nth_error_app1 by (rewrite firstn_length; lia).
    rewrite <- (firstn_skipn off buf) at 2.
    rewrite nth_error_app1 by (rewrite firstn_length; lia). auto.
Qed.

Lemma nth_error_get off n buf i :
  nth_error (get off n buf) i =
    if i <? n then nth_error buf (off + i) else None.
Proof.
  unfold get. destruct (i <? n) eqn:E.
  - apply Nat.ltb_lt in E.
    destruct (Nat.le_gt_cases (length buf) (off + i)).
    + rewrite (proj2 (nth_error_None buf (off + i))) by lia.
      apply nth_error_None. rewrite firstn_length, skipn_length. lia.
    + rewrite <- (firstn_skipn off buf) at 2.
      rewrite nth_error_app2 by (rewrite firstn_length; lia).
      rewrite firstn_length, Nat.min_l by lia.
      replace (off + i - off) with i by lia.
      rewrite <- (firstn_skipn n (skipn off buf)) at 2.
      rewrite nth_error_app1; auto.
      rewrite firstn_length, skipn_length. lia.
  - apply Nat.ltb_ge in E. apply nth_error_None. rewrite firstn_length. lia.
Qed.

Lemma nth_error_ext {A} (l l' : list A) :
  (forall i, nth_error l i = nth_error l' i) -> l = l'.
Proof.
  revert l'; induction l as [|a l IH]; intros [|b l'] H; auto.
  - specialize (H 0); discriminate.
  - specialize (H 0); discriminate.
  - f_equal.
    + specialize (H 0). cbn in H. congruence.
    + apply IH. intros i. apply (H (S i)).
Qed.

Lemma get_put_other off bs buf o n :
  off + length bs <= length buf ->
  o + n <= off \/ off + length bs <= o ->
  get o n (put off bs buf) = get o n buf.
Proof.
  intros H1 H2. apply nth_error_ext. intros i.
  rewrite !nth_error_get. destruct (i <? n) eqn:E; auto.
  apply Nat.ltb_lt in E.
  rewrite nth_error_put by auto.
  destruct (off <=? o + i) eqn:E1; cbn [andb]; auto.
  apply Nat.leb_le in E1.
  destruct (o + i <? off + length bs) eqn:E2; auto.
  apply Nat.ltb_lt in E2. lia.
Qed.

Lemma get_app_prefix off n a b :
  off + n <= length a -> get off n (a ++ b) = get off n a.
Proof.
  intros. apply nth_error_ext. intros i. rewrite !nth_error_get.
  destruct (i <? n) eqn:E; auto. apply Nat.ltb_lt in E.
  rewrite nth_error_app1 by lia. auto.
Qed.

Lemma all_bytes_get off n buf : all_bytes buf -> all_bytes (get off n buf).
Proof.
  unfold all_bytes, get. rewrite !Forall_forall. intros H x Hx.
  apply H. rewrite <- (firstn_skipn off buf). apply in_or_app. right.
  rewrite <- (firstn_skipn n (skipn off buf)). apply in_or_app. auto.
Qed.

Lemma all_bytes_put off bs buf :
  all_bytes buf -> all_bytes bs -> all_bytes (put off bs buf).
Proof.
  unfold put, all_bytes. intros H1 H2.
  apply Forall_app. split; [|apply Forall_app; split; auto].
  - rewrite <- (firstn_skipn off buf) in H1. apply Forall_app in H1. tauto.
  - rewrite <- (firstn_skipn (off + length bs) buf) in H1.
    apply Forall_app in H1. tauto.
Qed.

Lemma le_dec_bound l : all_bytes l -> (le_dec l < 256 ^ N.of_nat (length l))%N.
Proof.
  induction 1 as [|b l Hb Hl IH].
  - cbn. lia.
  - cbn [le_dec length]. replace (N.of_nat (S (length l))) with (N.succ (N.of_nat (length l))) by lia.
    rewrite N.pow_succ_r'. unfold is_byte in Hb. nia.
Qed.
