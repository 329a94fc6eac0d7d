(* C106: a random number lies between its bounds; the delay before a retry is at most a second. *)
From Coq Require Import ZArith Bool Lia.
From Verif Require Import RandDelay.
Open Scope Z_scope.

(* the relative error of a float, upwards *)
Lemma flt_up : forall z, 0 <= z -> flt z * 2 ^ 24 <= z * (2 ^ 24 + 1).
Proof.
  intros z H. unfold flt. destruct (Z.leb_spec (Z.log2 z - 23) 0) as [L | L]; [lia|]. set (e := Z.log2 z - 23) in *.
  assert (Pz : 0 < z) by (destruct (Z.eq_dec z 0) as [-> | ?]; [cbn in e; lia|lia]). pose proof (Z.log2_spec z Pz) as [Lo _].
  assert (D : 2 ^ Z.log2 z = 2 ^ 24 * 2 ^ (e - 1)) by (rewrite <- Z.pow_add_r by lia; f_equal; lia).
  assert (E : 2 ^ e = 2 * 2 ^ (e - 1)) by (rewrite <- Z.pow_succ_r by lia; f_equal; lia).
  pose proof (Z.div_mod z (2 ^ e) ltac:(lia)) as M. pose proof (Z.mod_pos_bound z (2 ^ e) ltac:(lia)) as B.
  set (h := 2 ^ (e - 1)) in *. set (q := z / 2 ^ e) in *. set (r := z mod 2 ^ e) in *. rewrite E in *. rewrite D in Lo.
  destruct ((h <? r) || ((r =? h) && Z.odd q)) eqn:C.
  - assert (R : h <= r) by (apply orb_true_iff in C as [C | C]; [apply Z.ltb_lt in C; lia|apply andb_true_iff in C as [C _]; apply Z.eqb_eq in C; lia]). nia.
  - nia.
Qed.
Lemma flt_down : forall z, 0 <= z -> z * (2 ^ 24 - 1) <= flt z * 2 ^ 24.
Proof.
  intros z H. unfold flt. destruct (Z.leb_spec (Z.log2 z - 23) 0) as [L | L]; [lia|]. set (e := Z.log2 z - 23) in *.
  assert (Pz : 0 < z) by (destruct (Z.eq_dec z 0) as [-> | ?]; [cbn in e; lia|lia]). pose proof (Z.log2_spec z Pz) as [Lo _].
  assert (D : 2 ^ Z.log2 z = 2 ^ 24 * 2 ^ (e - 1)) by (rewrite <- Z.pow_add_r by lia; f_equal; lia).
  assert (E : 2 ^ e = 2 * 2 ^ (e - 1)) by (rewrite <- Z.pow_succ_r by lia; f_equal; lia).
  pose proof (Z.div_mod z (2 ^ e) ltac:(lia)) as M. pose proof (Z.mod_pos_bound z (2 ^ e) ltac:(lia)) as B.
  set (h := 2 ^ (e - 1)) in *. set (q := z / 2 ^ e) in *. set (r := z mod 2 ^ e) in *. rewrite E in *. rewrite D in Lo.
  destruct ((h <? r) || ((r =? h) && Z.odd q)) eqn:C.
  - nia.
  - assert (R : r <= h) by (apply orb_false_iff in C as [C _]; apply Z.ltb_ge in C; exact C). nia.
Qed.
Lemma flt_pos : forall z, 0 <= z -> 0 <= flt z.
Proof.
  intros z H. unfold flt. destruct (Z.leb_spec (Z.log2 z - 23) 0) as [L | L]; [exact H|]. assert (0 <= z / 2 ^ (Z.log2 z - 23)) by (apply Z.div_pos; lia).
  apply Z.mul_nonneg_nonneg; [destruct (_ || _); lia|lia].
Qed.
Lemma flt_small : forall z, 0 <= z < 2 ^ 24 -> flt z = z.
Proof.
  intros z H. unfold flt. destruct (Z.leb_spec (Z.log2 z - 23) 0) as [L | L]; [reflexivity|]. exfalso. destruct (Z.eq_dec z 0) as [-> | N]; [cbn in L; lia|].
  assert (Z.log2 z < 24) by (apply Z.log2_lt_pow2; lia). lia.
Qed.
Lemma flt_rv : forall rv, 0 <= rv < 2 ^ 31 -> flt rv <= 2 ^ 31 /\ (rv < 2 ^ 31 - 64 -> flt rv <= 2 ^ 31 - 128) /\ (2 ^ 31 - 64 <= rv -> flt rv = 2 ^ 31).
Proof.
  intros rv H. destruct (Z.lt_ge_cases rv (2 ^ 30)) as [S | S]; [pose proof (flt_up rv ltac:(lia)); lia|].
  assert (L : Z.log2 rv = 30) by (apply Z.log2_unique; lia). unfold flt. rewrite L. change (30 - 23) with 7. change (7 <=? 0) with false. cbn iota. change (2 ^ 7) with 128. change (2 ^ (7 - 1)) with 64.
  pose proof (Z.div_mod rv 128 ltac:(lia)) as M. pose proof (Z.mod_pos_bound rv 128 ltac:(lia)) as B. set (q := rv / 128) in *. set (r := rv mod 128) in *.
  destruct (Z.ltb_spec 64 r) as [C | C]; cbn [orb]; [lia|]. destruct (Z.eqb_spec r 64) as [C' | C']; cbn [andb].
  - destruct (Z.eq_dec q (2 ^ 24 - 1)) as [Q | Q]; [rewrite Q; change (Z.odd (2 ^ 24 - 1)) with true; lia|]. destruct (Z.odd q); lia.
  - lia.
Qed.

(* ---- theorems: rv is what random() gave ---- *)
(* never below, and at most one above *)
Theorem C106_bounds_partial : forall a b rv, 0 <= rv < 2 ^ 31 -> 0 <= b - a < 2 ^ 24 - 1 -> a <= get_rand a b rv <= b + 1.
Proof.
  intros a b rv R N. unfold get_rand. rewrite (flt_small (b - a + 1)) by lia. destruct (flt_rv rv R) as [U _]. pose proof (flt_pos rv ltac:(lia)) as P. set (n := b - a + 1) in *.
  assert (Q : 0 <= n * flt rv <= n * 2 ^ 31) by nia. pose proof (flt_up (n * flt rv) ltac:(lia)) as F. pose proof (flt_pos (n * flt rv) ltac:(lia)) as F0. set (p := flt (n * flt rv)) in *.
  assert (0 <= p / 2 ^ 31) by (apply Z.div_pos; lia). assert (p / 2 ^ 31 < n + 1) by (apply Z.div_lt_upper_bound; lia). lia.
Qed.
Print Assumptions C106_bounds_partial.
(* between the bounds exactly when random() was not one of its 64 largest values *)
Theorem C106_exact : forall a b rv, 0 <= rv < 2 ^ 31 -> 0 <= b - a < 2 ^ 24 - 1 -> (a <= get_rand a b rv <= b <-> rv < 2 ^ 31 - 64).
Proof.
  intros a b rv R N. pose proof (C106_bounds_partial a b rv R N) as [Lo _]. unfold get_rand in *. rewrite (flt_small (b - a + 1)) in * by lia. destruct (flt_rv rv R) as [U [V W]]. pose proof (flt_pos rv ltac:(lia)) as P. set (n := b - a + 1) in *. split.
  - intros [_ Hi]. destruct (Z.lt_ge_cases rv (2 ^ 31 - 64)) as [X | X]; [exact X|]. exfalso. rewrite (W X) in Hi.
    assert (E : flt (n * 2 ^ 31) = n * 2 ^ 31).
    { unfold flt. destruct (Z.leb_spec (Z.log2 (n * 2 ^ 31) - 23) 0) as [|L]; [reflexivity|]. assert (G : Z.log2 (n * 2 ^ 31) = Z.log2 n + 31) by (rewrite Z.log2_mul_pow2 by lia; lia). rewrite G in *.
      assert (K : Z.log2 n < 24) by (apply Z.log2_lt_pow2; lia). pose proof (Z.log2_nonneg n) as K0. set (e := Z.log2 n + 31 - 23) in *.
      assert (D : 2 ^ 31 = 2 ^ (31 - e) * 2 ^ e) by (rewrite <- Z.pow_add_r by lia; f_equal; lia).
      assert (T : n * 2 ^ 31 = (n * 2 ^ (31 - e)) * 2 ^ e) by (rewrite D at 1; ring). rewrite T. rewrite Z.mod_mul by lia. rewrite Z.div_mul by lia.
      assert (0 < 2 ^ (e - 1)) by lia. destruct (Z.ltb_spec (2 ^ (e - 1)) 0); [lia|]. destruct (Z.eqb_spec 0 (2 ^ (e - 1))); [lia|]. reflexivity. }
    rewrite E, Z.div_mul in Hi by lia. lia.
  - intros X. split; [exact Lo|]. specialize (V X). assert (Q : 0 <= n * flt rv <= n * (2 ^ 31 - 128)) by nia. pose proof (flt_up (n * flt rv) ltac:(lia)) as F. set (p := flt (n * flt rv)) in *.
    assert (p / 2 ^ 31 < n) by (apply Z.div_lt_upper_bound; lia). lia.
Qed.
Print Assumptions C106_exact.
(* and it is as far between them as rv is between 0 and 2^31, but for one *)
Theorem C106_near : forall a b rv, 0 <= rv < 2 ^ 31 -> 0 <= b - a < 2 ^ 22 -> let k := a + (b - a + 1) * rv / 2 ^ 31 in k - 1 <= get_rand a b rv <= k + 1.
Proof.
  intros a b rv R N k. unfold k, get_rand. rewrite (flt_small (b - a + 1)) by lia. set (n := b - a + 1) in *. pose proof (flt_up rv ltac:(lia)) as U1. pose proof (flt_down rv ltac:(lia)) as D1. pose proof (flt_pos rv ltac:(lia)) as P.
  set (f := flt rv) in *. assert (Q : 0 <= n * f) by nia. pose proof (flt_up (n * f) Q) as U2. pose proof (flt_down (n * f) Q) as D2. set (p := flt (n * f)) in *.
  assert (U3 : n * f * 2 ^ 24 <= n * rv * (2 ^ 24 + 1)) by nia. assert (D3 : n * rv * (2 ^ 24 - 1) <= n * f * 2 ^ 24) by nia.
  assert (B : 0 <= n * rv < 2 ^ 22 * 2 ^ 31 + 2 ^ 31) by nia. set (m := n * rv) in *. set (w := n * f) in *. clearbody m w p f.
  pose proof (Z.div_mod m (2 ^ 31) ltac:(lia)) as Em. pose proof (Z.mod_pos_bound m (2 ^ 31) ltac:(lia)) as Bm. pose proof (Z.div_mod p (2 ^ 31) ltac:(lia)) as Ep. pose proof (Z.mod_pos_bound p (2 ^ 31) ltac:(lia)) as Bp. lia.
Qed.
Print Assumptions C106_near.
(* the delay before a retry *)
Theorem C106_delay : forall rv, 0 <= rv < 2 ^ 31 -> 0 <= retry_delay rv <= 1000001.
Proof. intros rv R. unfold retry_delay. apply C106_bounds_partial; lia. Qed.
Print Assumptions C106_delay.
Theorem C106_delay_refuted : exists rv, 0 <= rv < 2 ^ 31 /\ retry_delay rv = 1000001.
Proof. exists (2 ^ 31 - 1). split; [lia|]. vm_compute. reflexivity. Qed.
Print Assumptions C106_delay_refuted.
(* larger ranges miss by more *)
Theorem C106_wide_refuted : exists a b rv, 0 <= rv < 2 ^ 31 /\ 0 <= b - a < 2 ^ 31 - 1 /\ get_rand a b rv > b + 1.
Proof. exists 0, (2 ^ 31 - 3), (2 ^ 31 - 1). vm_compute. repeat split; discriminate || reflexivity. Qed.
Print Assumptions C106_wide_refuted.
(* all numbers of a range of four, and the one above *)
Example C106_nonvacuous : get_rand 5 8 0 = 5 /\ get_rand 5 8 (2 ^ 29) = 6 /\ get_rand 5 8 (2 ^ 30) = 7 /\ get_rand 5 8 (2 ^ 31 - 65) = 8 /\ get_rand 5 8 (2 ^ 31 - 64) = 9 /\ retry_delay (2 ^ 30) = 500000.
Proof. vm_compute. repeat split. Qed.
