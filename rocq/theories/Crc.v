(* CRC-32C as used for every on-disk checksum.
   src/crc32c.c. *)
From Coq Require Import List NArith ZArith Lia Bool Arith.
From Verif Require Import Bytes.
Import ListNotations.
Open Scope N_scope.

(* src/crc32c.c:22-87, the table, verbatim. *)
Definition crc32c_table : list N :=
 [
   0x00000000; 0xF26B8303; 0xE13B70F7; 0x1350F3F4;
   0xC79A971F; 0x35F1141C; 0x26A1E7E8; 0xD4CA64EB;
   0x8AD958CF; 0x78B2DBCC; 0x6BE22838; 0x9989AB3B;
   0x4D43CFD0; 0xBF284CD3; 0xAC78BF27; 0x5E133C24;
   0x105EC76F; 0xE235446C; 0xF165B798; 0x030E349B;
   0xD7C45070; 0x25AFD373; 0x36FF2087; 0xC494A384;
   0x9A879FA0; 0x68EC1CA3; 0x7BBCEF57; 0x89D76C54;
   0x5D1D08BF; 0xAF768BBC; 0xBC267848; 0x4E4DFB4B;
   0x20BD8EDE; 0xD2D60DDD; 0xC186FE29; 0x33ED7D2A;
   0xE72719C1; 0x154C9AC2; 0x061C6936; 0xF477EA35;
   0xAA64D611; 0x580F5512; 0x4B5FA6E6; 0xB93425E5;
   0x6DFE410E; 0x9F95C20D; 0x8CC531F9; 0x7EAEB2FA;
   0x30E349B1; 0xC288CAB2; 0xD1D83946; 0x23B3BA45;
   0xF779DEAE; 0x05125DAD; 0x1642AE59; 0xE4292D5A;
   0xBA3A117E; 0x4851927D; 0x5B016189; 0xA96AE28A;
   0x7DA08661; 0x8FCB0562; 0x9C9BF696; 0x6EF07595;
   0x417B1DBC; 0xB3109EBF; 0xA0406D4B; 0x522BEE48;
   0x86E18AA3; 0x748A09A0; 0x67DAFA54; 0x95B17957;
   0xCBA24573; 0x39C9C670; 0x2A993584; 0xD8F2B687;
   0x0C38D26C; 0xFE53516F; 0xED03A29B; 0x1F682198;
   0x5125DAD3; 0xA34E59D0; 0xB01EAA24; 0x42752927;
   0x96BF4DCC; 0x64D4CECF; 0x77843D3B; 0x85EFBE38;
   0xDBFC821C; 0x2997011F; 0x3AC7F2EB; 0xC8AC71E8;
   0x1C661503; 0xEE0D9600; 0xFD5D65F4; 0x0F36E6F7;
   0x61C69362; 0x93AD1061; 0x80FDE395; 0x72966096;
   0xA65C047D; 0x5437877E; 0x4767748A; 0xB50CF789;
   0xEB1FCBAD; 0x197448AE; 0x0A24BB5A; 0xF84F3859;
   0x2C855CB2; 0xDEEEDFB1; 0xCDBE2C45; 0x3FD5AF46;
   0x7198540D; 0x83F3D70E; 0x90A324FA; 0x62C8A7F9;
   0xB602C312; 0x44694011; 0x5739B3E5; 0xA55230E6;
   0xFB410CC2; 0x092A8FC1; 0x1A7A7C35; 0xE811FF36;
   0x3CDB9BDD; 0xCEB018DE; 0xDDE0EB2A; 0x2F8B6829;
   0x82F63B78; 0x709DB87B; 0x63CD4B8F; 0x91A6C88C;
   0x456CAC67; 0xB7072F64; 0xA457DC90; 0x563C5F93;
   0x082F63B7; 0xFA44E0B4; 0xE9141340; 0x1B7F9043;
   0xCFB5F4A8; 0x3DDE77AB; 0x2E8E845F; 0xDCE5075C;
   0x92A8FC17; 0x60C37F14; 0x73938CE0; 0x81F80FE3;
   0x55326B08; 0xA759E80B; 0xB4091BFF; 0x466298FC;
   0x1871A4D8; 0xEA1A27DB; 0xF94AD42F; 0x0B21572C;
   0xDFEB33C7; 0x2D80B0C4; 0x3ED04330; 0xCCBBC033;
   0xA24BB5A6; 0x502036A5; 0x4370C551; 0xB11B4652;
   0x65D122B9; 0x97BAA1BA; 0x84EA524E; 0x7681D14D;
   0x2892ED69; 0xDAF96E6A; 0xC9A99D9E; 0x3BC21E9D;
   0xEF087A76; 0x1D63F975; 0x0E330A81; 0xFC588982;
   0xB21572C9; 0x407EF1CA; 0x532E023E; 0xA145813D;
   0x758FE5D6; 0x87E466D5; 0x94B49521; 0x66DF1622;
   0x38CC2A06; 0xCAA7A905; 0xD9F75AF1; 0x2B9CD9F2;
   0xFF56BD19; 0x0D3D3E1A; 0x1E6DCDEE; 0xEC064EED;
   0xC38D26C4; 0x31E6A5C7; 0x22B65633; 0xD0DDD530;
   0x0417B1DB; 0xF67C32D8; 0xE52CC12C; 0x1747422F;
   0x49547E0B; 0xBB3FFD08; 0xA86F0EFC; 0x5A048DFF;
   0x8ECEE914; 0x7CA56A17; 0x6FF599E3; 0x9D9E1AE0;
   0xD3D3E1AB; 0x21B862A8; 0x32E8915C; 0xC083125F;
   0x144976B4; 0xE622F5B7; 0xF5720643; 0x07198540;
   0x590AB964; 0xAB613A67; 0xB831C993; 0x4A5A4A90;
   0x9E902E7B; 0x6CFBAD78; 0x7FAB5E8C; 0x8DC0DD8F;
   0xE330A81A; 0x115B2B19; 0x020BD8ED; 0xF0605BEE;
   0x24AA3F05; 0xD6C1BC06; 0xC5914FF2; 0x37FACCF1;
   0x69E9F0D5; 0x9B8273D6; 0x88D28022; 0x7AB90321;
   0xAE7367CA; 0x5C18E4C9; 0x4F48173D; 0xBD23943E;
   0xF36E6F75; 0x0105EC76; 0x12551F82; 0xE03E9C81;
   0x34F4F86A; 0xC69F7B69; 0xD5CF889D; 0x27A40B9E;
   0x79B737BA; 0x8BDCB4B9; 0x988C474D; 0x6AE7C44E;
   0xBE2DA0A5; 0x4C4623A6; 0x5F16D052; 0xAD7D5351
 ].

(* one iteration of the loop, src/crc32c.c:98-99:
     crc = crc32c_table[(crc ^ *data++) & 0xFFL] ^ (crc >> 8) *)
Definition crc_step (crc b : N) : N :=
  N.lxor (nth (N.to_nat (N.land (N.lxor crc b) 0xFF)) crc32c_table 0)
         (N.shiftr crc 8).

(* src/crc32c.c:96-102 *)
Definition crc32c (crc : N) (data : bytes) : N := fold_left crc_step data crc.

(* (uint32_t)~1, the start value, src/paxos_lease.c:66-74 *)
Definition crc_init : N := 0xFFFFFFFE.

(* ------------------------------------------------------------------ *)
(* Facts about the table, checked by computation over its 256 entries. *)

Definition topbyte (x : N) : N := N.shiftr x 24.

Lemma table_length : length crc32c_table = 256%nat.
Proof. reflexivity. Qed.

Lemma table_32bit : forallb (fun x => x <? 2 ^ 32) crc32c_table = true.
Proof. vm_compute. reflexivity. Qed.

Fixpoint nodupb (l : list N) : bool :=
  match l with
  | [] => true
  | x :: r => negb (existsb (N.eqb x) r) && nodupb r
  end.

Lemma nodupb_spec l : nodupb l = true -> NoDup l.
Proof.
  induction l; cbn [nodupb]; intros H; constructor.
  - apply andb_prop in H. destruct H as [H _].
    intros Hin. apply negb_true_iff in H.
    assert (existsb (N.eqb a) l = true).
    { apply existsb_exists. exists a. split; auto. apply N.eqb_refl. }
    congruence.
  - apply IHl. apply andb_prop in H. tauto.
Qed.

Lemma table_top_nodup : NoDup (map topbyte crc32c_table).
Proof. apply nodupb_spec. vm_compute. reflexivity. Qed.

Definition tab (i : N) : N := nth (N.to_nat i) crc32c_table 0.

Lemma tab_bound i : tab i < 2 ^ 32.
Proof.
  unfold tab.
  destruct (Nat.lt_ge_cases (N.to_nat i) (length crc32c_table)) as [H|H].
  - pose proof table_32bit as T. rewrite forallb_forall in T.
    apply N.ltb_lt. apply T. apply nth_In; auto.
  - rewrite nth_overflow by auto. vm_compute. reflexivity.
Qed.

Lemma tab_top_inj i j :
  i < 256 -> j < 256 -> topbyte (tab i) = topbyte (tab j) -> i = j.
Proof.
  intros Hi Hj H. unfold tab in H.
  assert (N.to_nat i = N.to_nat j).
  { pose proof table_top_nodup as ND.
    rewrite (NoDup_nth (map topbyte crc32c_table) (topbyte 0)) in ND.
    apply ND.
    - rewrite map_length, table_length. lia.
    - rewrite map_length, table_length. lia.
    - rewrite !map_nth. auto. }
  lia.
Qed.

(* ------------------------------------------------------------------ *)
(* Step facts *)

Lemma crc_step_tab crc b :
  crc_step crc b = N.lxor (tab (N.land (N.lxor crc b) 0xFF)) (N.shiftr crc 8).
Proof. reflexivity. Qed.

Lemma land_ff x : N.land x 0xFF = x mod 256.
Proof. exact (N.land_ones x 8). Qed.

Lemma lt_pow2_testbit x n :
  x < 2 ^ n <-> (forall m, n <= m -> N.testbit x m = false).
Proof.
  split.
  - intros H m Hm.
    destruct (N.eq_dec x 0) as [->|Hx]; [apply N.bits_0|].
    apply N.bits_above_log2.
    apply N.log2_lt_pow2 in H; lia.
  - intros H.
    assert (x = x mod 2 ^ n) as ->.
    { apply N.bits_inj. intros m.
      destruct (N.le_gt_cases n m).
      - rewrite N.mod_pow2_bits_high by auto. apply H; auto.
      - rewrite N.mod_pow2_bits_low by auto. reflexivity. }
    apply N.mod_lt. apply N.pow_nonzero. lia.
Qed.

Lemma lxor_bound a b n : a < 2 ^ n -> b < 2 ^ n -> N.lxor a b < 2 ^ n.
Proof.
  rewrite !lt_pow2_testbit. intros Ha Hb m Hm.
  rewrite N.lxor_spec, Ha, Hb by auto. reflexivity.
Qed.

Lemma shiftr_bound a n k : a < 2 ^ (n + k) -> N.shiftr a k < 2 ^ n.
Proof.
  rewrite !lt_pow2_testbit. intros Ha m Hm.
  rewrite N.shiftr_spec by lia. apply Ha. lia.
Qed.

Lemma crc_step_bound crc b : crc < 2 ^ 32 -> crc_step crc b < 2 ^ 32.
Proof.
  intros H. rewrite crc_step_tab. apply lxor_bound.
  - apply tab_bound.
  - apply N.lt_trans with (2 ^ 24).
    + apply shiftr_bound. exact H.
    + vm_compute. reflexivity.
Qed.

Lemma crc32c_bound crc l : crc < 2 ^ 32 -> crc32c crc l < 2 ^ 32.
Proof.
  unfold crc32c. revert crc. induction l; intros; cbn [fold_left]; auto.
  apply IHl. apply crc_step_bound; auto.
Qed.

Lemma shiftr_small a n : a < 2 ^ n -> N.shiftr a n = 0.
Proof.
  intros H. rewrite N.shiftr_div_pow2. apply N.div_small; auto.
Qed.

(* feeding byte b is the same as xoring it into the state and feeding 0 *)
Lemma crc_step_xor crc b :
  b < 256 -> crc_step crc b = crc_step (N.lxor crc b) 0.
Proof.
  intros Hb. rewrite !crc_step_tab.
  rewrite N.lxor_0_r. f_equal.
  rewrite N.shiftr_lxor, (shiftr_small b 8) by exact Hb.
  rewrite N.lxor_0_r. reflexivity.
Qed.

(* the step with a fixed byte is injective on 32-bit states *)
Lemma crc_step0_inj x y :
  x < 2 ^ 32 -> y < 2 ^ 32 -> crc_step x 0 = crc_step y 0 -> x = y.
Proof.
  intros Hx Hy H. rewrite !crc_step_tab, !N.lxor_0_r in H.
  assert (Hlow : N.land x 0xFF = N.land y 0xFF).
  { apply tab_top_inj.
    - rewrite land_ff. apply N.mod_lt; lia.
    - rewrite land_ff. apply N.mod_lt; lia.
    - apply (f_equal topbyte) in H. unfold topbyte in *.
      rewrite !N.shiftr_lxor in H.
      rewrite !N.shiftr_shiftr in H.
      rewrite (shiftr_small x (8 + 24)), (shiftr_small y (8 + 24)) in H by assumption.
      rewrite !N.lxor_0_r in H. exact H. }
  rewrite Hlow in H.
  assert (Hhigh : N.shiftr x 8 = N.shiftr y 8).
  { apply (f_equal (N.lxor (tab (N.land y 0xFF)))) in H.
    rewrite <- !N.lxor_assoc, N.lxor_nilpotent, !N.lxor_0_l in H. exact H. }
  rewrite !land_ff in Hlow.
  rewrite !N.shiftr_div_pow2 in Hhigh. change (2 ^ 8) with 256 in Hhigh.
  rewrite (N.div_mod x 256), (N.div_mod y 256) by lia. congruence.
Qed.

Lemma crc_step_inj x y b :
  b < 256 -> x < 2 ^ 32 -> y < 2 ^ 32 -> crc_step x b = crc_step y b -> x = y.
Proof.
  intros Hb Hx Hy H. rewrite (crc_step_xor x b), (crc_step_xor y b) in H by auto.
  assert (Hb32 : b < 2 ^ 32) by (eapply N.lt_trans; [exact Hb|reflexivity]).
  apply crc_step0_inj in H; try (apply lxor_bound; auto).
  apply (f_equal (fun z => N.lxor z b)) in H.
  rewrite !N.lxor_assoc, N.lxor_nilpotent, !N.lxor_0_r in H. exact H.
Qed.

Lemma crc32c_inj l x y :
  all_bytes l -> x < 2 ^ 32 -> y < 2 ^ 32 -> crc32c x l = crc32c y l -> x = y.
Proof.
  unfold crc32c. intros Hl. revert x y. induction Hl; intros; cbn [fold_left] in *; auto.
  apply IHHl in H2; try apply crc_step_bound; auto.
  eapply crc_step_inj; eauto.
Qed.

(* xor of a value shifted left by one byte passes through a zero step *)
Lemma crc_step0_shift x y :
  crc_step (N.lxor x (256 * y)) 0 = N.lxor (crc_step x 0) y.
Proof.
  rewrite !crc_step_tab, !N.lxor_0_r.
  replace (256 * y) with (N.shiftl y 8)
    by (rewrite N.shiftl_mul_pow2; change (2 ^ 8) with 256; lia).
  rewrite N.shiftr_lxor, N.shiftr_shiftl_l by lia. rewrite N.sub_diag, N.shiftl_0_r.
  rewrite <- N.lxor_assoc. f_equal. f_equal. f_equal.
  apply N.bits_inj. intros m.
  rewrite !N.land_spec, N.lxor_spec.
  destruct (N.le_gt_cases 8 m).
  - change 0xFF with (N.ones 8). rewrite N.ones_spec_high by auto.
    rewrite !andb_false_r. reflexivity.
  - rewrite N.shiftl_spec_low by auto. rewrite xorb_false_r. reflexivity.
Qed.

Definition zeros (n : nat) : bytes := repeat 0 n.

Lemma lxor_add_byte b r : b < 256 -> b + 256 * r = N.lxor b (256 * r).
Proof.
  intros Hb. symmetry.
  rewrite N.add_nocarry_lxor; auto.
  apply N.bits_inj. intros m. rewrite N.land_spec, N.bits_0.
  replace (256 * r) with (N.shiftl r 8)
    by (rewrite N.shiftl_mul_pow2; change (2 ^ 8) with 256; lia).
  destruct (N.le_gt_cases 8 m).
  - replace (N.testbit b m) with false; auto. symmetry.
    apply (proj1 (lt_pow2_testbit b 8)); auto.
  - rewrite N.shiftl_spec_low by auto. apply andb_false_r.
Qed.

(* feeding a list of bytes = xoring its little endian value into the state
   and feeding as many zero bytes *)
Lemma crc32c_as_xor l crc :
  all_bytes l ->
  crc32c crc l = crc32c (N.lxor crc (le_dec l)) (zeros (length l)).
Proof.
  intros Hl. revert crc. induction Hl as [|b l Hb Hl IH]; intros crc.
  - cbn. rewrite N.lxor_0_r. reflexivity.
  - cbn [le_dec length zeros repeat]. unfold crc32c. cbn [fold_left].
    fold (crc32c (crc_step crc b) l).
    fold (zeros (length l)).
    fold (crc32c (crc_step (N.lxor crc (b + 256 * le_dec l)) 0) (zeros (length l))).
    rewrite IH. f_equal.
    rewrite lxor_add_byte by exact Hb.
    rewrite <- N.lxor_assoc, crc_step0_shift.
    rewrite crc_step_xor by exact Hb. reflexivity.
Qed.

Lemma zeros_bytes n : all_bytes (zeros n).
Proof.
  unfold zeros, all_bytes. apply Forall_forall. intros x Hx.
  apply repeat_spec in Hx. subst. reflexivity.
Qed.

Lemma crc32c_app crc a b : crc32c crc (a ++ b) = crc32c (crc32c crc a) b.
Proof. unfold crc32c. apply fold_left_app. Qed.

(* the window map is injective for windows of at most 4 bytes *)
Lemma crc_window_inj crc m m' :
  crc < 2 ^ 32 ->
  all_bytes m -> all_bytes m' -> length m = length m' -> (length m <= 4)%nat ->
  crc32c crc m = crc32c crc m' -> m = m'.
Proof.
  intros Hc Hm Hm' Hlen Hle H.
  assert (B : forall l, all_bytes l -> (length l <= 4)%nat -> le_dec l < 2 ^ 32).
  { intros l Hl Hll.
    eapply N.lt_le_trans; [apply le_dec_bound; auto|].
    apply N.le_trans with (256 ^ 4).
    - apply N.pow_le_mono_r; lia.
    - vm_compute. discriminate. }
  rewrite (crc32c_as_xor m), (crc32c_as_xor m') in H by auto.
  rewrite <- Hlen in H.
  apply crc32c_inj in H.
  - apply (f_equal (N.lxor crc)) in H.
    rewrite <- !N.lxor_assoc, N.lxor_nilpotent, !N.lxor_0_l in H.
    rewrite <- (le_enc_dec m), <- (le_enc_dec m') by auto. congruence.
  - apply zeros_bytes.
  - apply lxor_bound; auto.
  - apply lxor_bound; auto. apply B; auto. lia.
Qed.

(* main lemma: replacing up to 4 adjacent bytes changes the checksum *)
Lemma crc_burst crc pre m m' post :
  crc < 2 ^ 32 ->
  all_bytes pre -> all_bytes m -> all_bytes m' -> all_bytes post ->
  length m = length m' -> (length m <= 4)%nat -> m <> m' ->
  crc32c crc (pre ++ m ++ post) <> crc32c crc (pre ++ m' ++ post).
Proof.
  intros Hc Hpre Hm Hm' Hpost Hl Hle Hne H. apply Hne.
  rewrite !crc32c_app in H.
  apply crc32c_inj in H; auto.
  - eapply crc_window_inj; [| | | | |exact H]; auto. apply crc32c_bound; auto.
  - apply crc32c_bound, crc32c_bound; auto.
  - apply crc32c_bound, crc32c_bound; auto.
Qed.

(* known answer test (not a proof): CRC-32C("123456789") with start value
   0xFFFFFFFF, before the final inversion of the usual definition. *)
Example crc_kat :
  N.lxor (crc32c 0xFFFFFFFF [0x31;0x32;0x33;0x34;0x35;0x36;0x37;0x38;0x39]) 0xFFFFFFFF
  = 0xE3069283.
Proof. vm_compute. reflexivity. Qed.
