(* Round trips: escaped paths, printed numbers, whole resource strings. *)
From Coq Require Import List NArith ZArith Lia Bool Arith ZifyBool ZifyN ZifyNat.
From Verif Require Import Bytes Strings StringsProof.
Import ListNotations.
Open Scope N_scope.

Definition esc1 (c : N) : bytes := if (c =? SP) || (c =? CO) then [BS; c] else [c].
Definition esc (s : bytes) : bytes := flat_map esc1 s.
Definition clean (s : bytes) : Prop := forall c, In c s -> c <> 0 /\ c <> BS.
Definition plain (s : bytes) : Prop := forall c, In c s -> c <> 0 /\ c <> BS /\ c <> CO.

Lemma clean_cons : forall c s, clean (c :: s) -> c <> 0 /\ c <> BS /\ clean s.
Proof. intros c s H. destruct (H c (or_introl eq_refl)) as (A & B). do 2 (split; [assumption|]). intros d I. apply H. right. exact I. Qed.
Lemma plain_cons : forall c s, plain (c :: s) -> c <> 0 /\ c <> BS /\ c <> CO /\ plain s.
Proof. intros c s H. destruct (H c (or_introl eq_refl)) as (A & B & C). do 3 (split; [assumption|]). intros d I. apply H. right. exact I. Qed.

Lemma export_esc : forall dl, (3 <= dl < 2 ^ 63)%Z -> forall s j, clean s ->
  (0 <= j)%Z -> (j + Z.of_nat (length (esc s)) <= dl - 1)%Z -> path_export_w dl s j = esc s.
Proof.
  intros dl D. assert (S3 : size_sub dl 3 = (dl - 3)%Z) by (unfold size_sub; apply Z.mod_small; lia).
  assert (S2 : size_sub dl 2 = (dl - 2)%Z) by (unfold size_sub; apply Z.mod_small; lia).
  induction s as [|c r IH]; intros j Cl J L; [reflexivity|].
  destruct (clean_cons _ _ Cl) as (C0 & CB & Cr). cbn [path_export_w]. rewrite S2, S3.
  assert (c =? BS = false) as -> by (apply N.eqb_neq; exact CB).
  cbn [esc flat_map] in *. fold (esc r) in *. rewrite app_length in L. unfold esc1 in *.
  destruct ((c =? SP) || (c =? CO)); cbn [length app] in *.
  - destruct (dl - 3 <? j)%Z eqn:E; [lia|]. rewrite IH by (auto; lia). reflexivity.
  - destruct (dl - 2 <? j)%Z eqn:E; [lia|]. rewrite IH by (auto; lia). reflexivity.
Qed.

Lemma esc_nz : forall s c, clean s -> In c (esc s) -> c <> 0.
Proof.
  induction s as [|d r IH]; intros c Cl I; [destruct I|]. destruct (clean_cons _ _ Cl) as (C0 & CB & Cr).
  cbn [esc flat_map] in I. apply in_app_or in I. destruct I as [I|I]; [|exact (IH _ Cr I)].
  unfold esc1 in I. destruct ((d =? SP) || (d =? CO)); cbn in I.
  - destruct I as [<-|[<-|[]]]; [discriminate|exact C0].
  - destruct I as [<-|[]]. exact C0.
Qed.
Lemma upto_nul_id : forall s, (forall c, In c s -> c <> 0) -> upto_nul s = s.
Proof.
  induction s as [|c r IH]; intros H; [reflexivity|]. cbn [upto_nul].
  assert (c =? 0 = false) as -> by (apply N.eqb_neq; apply H; left; reflexivity).
  rewrite IH; [reflexivity|]. intros d I. apply H. right. exact I.
Qed.
Lemma path_export_esc : forall dl s, (3 <= dl < 2 ^ 63)%Z -> clean s ->
  (Z.of_nat (length (esc s)) <= dl - 1)%Z -> path_export dl s = esc s.
Proof.
  intros dl s D Cl L. unfold path_export. rewrite export_esc by (auto; lia).
  apply upto_nul_id. intros c. apply esc_nz. exact Cl.
Qed.

Lemma import_esc : forall dl s j, clean s -> (j + length s < dl)%nat ->
  path_import_w dl (esc s) j = (s ++ [0], true).
Proof.
  induction s as [|c r IH]; intros j Cl L.
  - cbn [esc flat_map path_import_w]. destruct (Nat.leb dl j) eqn:E; [apply Nat.leb_le in E; cbn in L; lia|reflexivity].
  - destruct (clean_cons _ _ Cl) as (C0 & CB & Cr). cbn [length] in L. cbn [esc flat_map]. fold (esc r).
    assert (Nat.leb dl j = false) as LJ by (apply Nat.leb_gt; lia).
    assert (c =? BS = false) as NB by (apply N.eqb_neq; exact CB).
    unfold esc1. destruct ((c =? SP) || (c =? CO)); cbn [app path_import_w]; rewrite ?LJ, ?NB, ?N.eqb_refl, (IH (S j) Cr) by lia; reflexivity.
Qed.

(* the length of the escaped form *)
Lemma esc_length : forall s, length (esc s) = (length s + length (filter (fun c => ((c =? SP) || (c =? CO))%N) s))%nat.
Proof.
  induction s as [|c r IH]; [reflexivity|]. cbn [esc flat_map filter]. fold (esc r). rewrite app_length, IH. unfold esc1.
  destruct ((c =? SP) || (c =? CO)); cbn [length]; lia.
Qed.

(* ---------------- numbers ---------------- *)
Lemma dec_digits : forall f n acc, n < 10 ^ N.of_nat f -> (1 <= f)%nat ->
  digits 10 (dec_aux f n acc) 0 = digits 10 acc n /\
  (forall c, In c (dec_aux f n acc) -> In c acc \/ (48 <= c <= 57)) /\
  (n <> 0 -> hd 48 (dec_aux f n acc) <> 48) /\ (length acc < length (dec_aux f n acc) <= length acc + f)%nat.
Proof.
  assert (DG : forall v, v < 10 -> digit_of 10 (48 + v) = Some v).
  { intros v V. unfold digit_of. assert ((48 <=? 48 + v) && (48 + v <=? 57) = true) as -> by lia.
    replace (48 + v - 48) with v by lia. assert (v <? 10 = true) as -> by lia. reflexivity. }
  induction f as [|f IH]; intros n acc L F; [lia|].
  assert (M : n mod 10 < 10) by (apply N.mod_upper_bound; lia).
  assert (DM : n = 10 * (n / 10) + n mod 10) by (apply N.div_mod; lia).
  cbn [dec_aux]. cbn zeta. destruct (n / 10 =? 0) eqn:E.
  - apply N.eqb_eq in E. split.
    { cbn [digits]. rewrite DG by exact M. f_equal. lia. }
    split. { intros c [<-|I]; [right; lia|left; exact I]. }
    split; [cbn [hd]; lia|cbn [length]; lia].
  - apply N.eqb_neq in E. assert (F1 : (1 <= f)%nat). { destruct f; [|lia]. cbn in L. lia. }
    assert (Lq : n / 10 < 10 ^ N.of_nat f).
    { apply N.div_lt_upper_bound; [lia|]. replace (N.of_nat (S f)) with (N.succ (N.of_nat f)) in L by lia.
      rewrite N.pow_succ_r' in L. lia. }
    destruct (IH (n / 10) ((48 + n mod 10) :: acc) Lq F1) as (A & B & H & Ln).
    split. { rewrite A. cbn [digits]. rewrite DG by exact M. f_equal. lia. }
    split. { intros c I. destruct (B c I) as [[<-|I']|R]; [right; lia|left; exact I'|right; exact R]. }
    split. { intros _. apply H. exact E. }
    cbn [length] in Ln. lia.
Qed.

Lemma print_llu_spec : forall n, n < 2 ^ 64 ->
  digits 10 (print_llu n) 0 = n /\ (forall c, In c (print_llu n) -> 48 <= c <= 57) /\
  (n <> 0 -> hd 48 (print_llu n) <> 48) /\ (1 <= length (print_llu n) <= 20)%nat.
Proof.
  intros n L. unfold print_llu.
  destruct (dec_digits 20 n [] ltac:(change (10 ^ N.of_nat 20) with 100000000000000000000; change (2 ^ 64) with 18446744073709551616 in L; lia) ltac:(lia)) as (A & B & H & Ln).
  split; [rewrite A; reflexivity|]. split. { intros c I. destruct (B c I) as [[]|R]; exact R. }
  split; [exact H|]. cbn [length] in Ln. lia.
Qed.

Lemma print_llu_sign : forall n, n < 2 ^ 64 -> split_sign (skip_space (print_llu n)) = (false, print_llu n) /\ some_digit 10 (print_llu n) = true.
Proof.
  intros n L. destruct (print_llu_spec n L) as (_ & R & _ & Ln).
  destruct (print_llu n) as [|c r] eqn:E; [cbn in Ln; lia|]. specialize (R c (or_introl eq_refl)).
  cbn [skip_space]. unfold is_space. assert ((c =? 32) || (9 <=? c) && (c <=? 13) = false) as -> by lia.
  cbn [split_sign]. assert (c =? 45 = false) as -> by lia. assert (c =? 43 = false) as -> by lia.
  split; [reflexivity|]. cbn [some_digit]. unfold digit_of. assert ((48 <=? c) && (c <=? 57) = true) as -> by lia.
  assert (c - 48 <? 10 = true) as -> by lia. reflexivity.
Qed.

Lemma clamp_id : forall n, n < 2 ^ 64 -> signed_value false n = n.
Proof. intros n L. unfold signed_value, clamp. assert (n <? 2 ^ 64 = true) as -> by (apply N.ltb_lt; exact L). reflexivity. Qed.

Lemma sscanf_print : forall n, n < 2 ^ 64 -> sscanf_llu (print_llu n) = Some n.
Proof.
  intros n L. unfold sscanf_llu. destruct (print_llu_sign n L) as (-> & ->).
  destruct (print_llu_spec n L) as (-> & _). rewrite clamp_id by exact L. reflexivity.
Qed.

Lemma strtoull_print : forall n, n < 2 ^ 64 -> strtoull0 (print_llu n) = n.
Proof.
  intros n L. unfold strtoull0. destruct (print_llu_sign n L) as (-> & _).
  destruct (print_llu_spec n L) as (D & R & H & Ln).
  destruct (N.eq_dec n 0) as [->|NZ]. { reflexivity. }
  specialize (H NZ). rewrite D.
  destruct (print_llu n) as [|z [|x r]] eqn:E; try (rewrite clamp_id by exact L; reflexivity).
  cbn [hd] in H. assert (z =? 48 = false) as -> by (apply N.eqb_neq; exact H). cbn [andb].
  apply clamp_id. exact L.
Qed.

Lemma print_plain : forall n, n < 2 ^ 64 -> plain (print_llu n).
Proof. intros n L c I. destruct (print_llu_spec n L) as (_ & R & _). specialize (R c I). unfold BS, CO. lia. Qed.

(* ---------------- scanning ---------------- *)
Definition with_sub (st : pst) (s : bytes) : pst := mkPst s (p_count st) (p_d st) (p_res st).

Lemma scan_plain : forall nd hl s rest st, plain s -> (length (p_sub st) + length s <= SANLK_PATH_LEN)%nat ->
  parse_loop nd hl (s ++ rest) st = parse_loop nd hl rest (with_sub st (p_sub st ++ s)).
Proof.
  intros nd hl. induction s as [|c r IH]; intros rest st P L.
  - rewrite app_nil_r. destruct st. reflexivity.
  - destruct (plain_cons _ _ P) as (C0 & CB & CC & Pr). cbn [length] in L. cbn [app parse_loop].
    assert (c =? BS = false) as -> by (apply N.eqb_neq; exact CB).
    assert (c =? CO = false) as -> by (apply N.eqb_neq; exact CC). cbn [negb].
    unfold push. destruct (Nat.leb SANLK_PATH_LEN _) eqn:E1; [apply Nat.leb_le in E1; lia|].
    destruct (Nat.leb (SANLK_PATH_LEN + 1) _) eqn:E2; [apply Nat.leb_le in E2; lia|].
    rewrite IH; [|exact Pr|cbn [p_sub]; rewrite app_length; cbn [length]; lia].
    unfold with_sub. cbn [p_sub p_count p_d p_res]. rewrite <- app_assoc. reflexivity.
Qed.

Lemma scan_esc : forall nd hl s rest st, clean s -> (length (p_sub st) + length s <= SANLK_PATH_LEN)%nat ->
  parse_loop nd hl (esc s ++ rest) st = parse_loop nd hl rest (with_sub st (p_sub st ++ s)).
Proof.
  intros nd hl. induction s as [|c r IH]; intros rest st P L.
  - rewrite app_nil_r. destruct st. reflexivity.
  - destruct (clean_cons _ _ P) as (C0 & CB & Pr). cbn [length] in L. cbn [esc flat_map]. fold (esc r). rewrite <- app_assoc.
    assert (Q : push st c = SGo (with_sub st (p_sub st ++ [c]))).
    { unfold push. destruct (Nat.leb SANLK_PATH_LEN _) eqn:E1; [apply Nat.leb_le in E1; lia|].
      destruct (Nat.leb (SANLK_PATH_LEN + 1) _) eqn:E2; [apply Nat.leb_le in E2; lia|]. reflexivity. }
    assert (G : parse_loop nd hl (esc1 c ++ esc r ++ rest) st = parse_loop nd hl (esc r ++ rest) (with_sub st (p_sub st ++ [c]))).
    { unfold esc1. destruct ((c =? SP) || (c =? CO)) eqn:E; cbn [app parse_loop].
      - rewrite N.eqb_refl, Q. reflexivity.
      - apply orb_false_iff in E. destruct E as (E1 & E2). rewrite E2.
        assert (c =? BS = false) as -> by (apply N.eqb_neq; exact CB). cbn [negb]. rewrite Q. reflexivity. }
    rewrite G, IH; [|exact Pr|cbn [with_sub p_sub]; rewrite app_length; cbn [length]; lia].
    unfold with_sub. cbn [p_sub p_count p_d p_res]. rewrite <- app_assoc. reflexivity.
Qed.

Lemma scan_colon : forall nd hl rest st, parse_loop nd hl (CO :: rest) st =
  match field nd hl st with SBad => PBad | SFail => PFail | SGo st' => parse_loop nd hl rest st' end.
Proof. reflexivity. Qed.

Lemma colons_plain : forall s rest, plain s -> count_colons (s ++ rest) = count_colons rest.
Proof.
  induction s as [|c r IH]; intros rest P; [reflexivity|]. destruct (plain_cons _ _ P) as (C0 & CB & CC & Pr).
  cbn [app count_colons]. assert (c =? BS = false) as -> by (apply N.eqb_neq; exact CB).
  assert (c =? CO = false) as -> by (apply N.eqb_neq; exact CC). apply IH. exact Pr.
Qed.
Lemma colons_esc : forall s rest, clean s -> count_colons (esc s ++ rest) = count_colons rest.
Proof.
  induction s as [|c r IH]; intros rest P; [reflexivity|]. destruct (clean_cons _ _ P) as (C0 & CB & Pr).
  cbn [esc flat_map]. fold (esc r). rewrite <- app_assoc. unfold esc1. destruct ((c =? SP) || (c =? CO)) eqn:E; cbn [app count_colons].
  - rewrite N.eqb_refl. apply IH. exact Pr.
  - apply orb_false_iff in E. destruct E as (E1 & E2). rewrite E2.
    assert (c =? BS = false) as -> by (apply N.eqb_neq; exact CB). apply IH. exact Pr.
Qed.
Lemma colons_co : forall rest, count_colons (CO :: rest) = S (count_colons rest).
Proof. reflexivity. Qed.

(* ---------------- whole resources ---------------- *)
Definition disk_good (d : sdisk) : Prop :=
  clean (sd_path d) /\ (1 <= length (sd_path d) <= 1023)%nat /\ (length (esc (sd_path d)) <= 1024)%nat /\ sd_offset d < 2 ^ 64.
Definition disks_tail (ds : list sdisk) : bytes := flat_map disk_str ds.

Lemma disk_str_eq : forall d, disk_good d -> disk_str d = CO :: esc (sd_path d) ++ CO :: print_llu (sd_offset d).
Proof.
  intros d (C & L & LE & O). unfold disk_str. rewrite path_export_esc; [reflexivity|lia|exact C|lia].
Qed.

Lemma colons_tail : forall ds rest, Forall disk_good ds ->
  count_colons (disks_tail ds ++ rest) = (2 * length ds + count_colons rest)%nat.
Proof.
  induction ds as [|d r IH]; intros rest F; [reflexivity|]. inversion F as [|? ? G Fr]; subst.
  cbn [disks_tail flat_map]. fold (disks_tail r). rewrite <- app_assoc, (disk_str_eq d G).
  destruct G as (C & L & LE & O). cbn [app]. rewrite colons_co, <- app_assoc, colons_esc by exact C.
  cbn [app]. rewrite colons_co, colons_plain by (apply print_plain; exact O). rewrite IH by exact Fr. cbn [length]. lia.
Qed.

Definition blank : sdisk := mkSdisk [] 0.
Lemma set_nth_app : forall (a b : list sdisk) x y, set_nth (length a) x (a ++ y :: b) = a ++ x :: b.
Proof.
  intros a b x y. unfold set_nth. rewrite firstn_app, Nat.sub_diag, firstn_all. cbn [firstn]. rewrite app_nil_r. f_equal.
  rewrite skipn_app, skipn_all2 by lia. replace (S (length a) - length a)%nat with 1%nat by lia. reflexivity.
Qed.
Lemma nth_app_mid : forall (a b : list sdisk) y, nth (length a) (a ++ y :: b) blank = y.
Proof. intros a b y. rewrite app_nth2 by lia. rewrite Nat.sub_diag. reflexivity. Qed.

Lemma scan_disks : forall hl nd ds rest done st sp nm lv fl,
  Forall disk_good ds ->
  (length done + length ds = nd)%nat ->
  field nd hl st = SGo (mkPst [] (2 + 2 * length done) (length done) (mkSres sp nm lv fl (done ++ repeat blank (length ds)))) ->
  exists st', parse_loop nd hl (disks_tail ds ++ rest) st = parse_loop nd hl rest st' /\
    field nd hl st' = SGo (mkPst [] (2 + 2 * nd) nd (mkSres sp nm lv fl (done ++ ds))).
Proof.
  intros hl nd. induction ds as [|d r IH]; intros rest done st sp nm lv fl F Ln Fd.
  - exists st. cbn [disks_tail flat_map app]. split; [reflexivity|]. cbn [length repeat] in *. rewrite Fd.
    replace nd with (length done) by lia. reflexivity.
  - inversion F as [|? ? G Fr]; subst d r. rename x into d; rename l into r.
    pose proof G as (C & L & LE & O). cbn [disks_tail flat_map]. fold (disks_tail r). rewrite <- app_assoc, (disk_str_eq d G).
    cbn [app]. rewrite scan_colon, Fd. rewrite <- app_assoc, scan_esc; [|exact C|cbn [p_sub length]; unfold SANLK_PATH_LEN; lia].
    cbn [p_sub app]. rewrite scan_colon. cbn [length] in *.
    set (st1 := with_sub _ _).
    assert (F1 : field nd hl st1 = SGo (mkPst [] (3 + 2 * length done) (length done)
                   (mkSres sp nm lv fl (done ++ mkSdisk (sd_path d) 0 :: repeat blank (length r))))).
    { unfold field, st1, with_sub. cbn [p_sub p_count p_d p_res sr_space sr_name sr_lver sr_flags sr_disks].
      assert (Nat.ltb (2 + 2 * length done) 2 = false) as -> by (apply Nat.ltb_ge; lia). cbn [andb].
      assert (Nat.leb 2 (2 + 2 * length done) = true) as -> by (apply Nat.leb_le; lia).
      assert (Nat.ltb (SANLK_PATH_LEN - 1) (length (sd_path d)) = false) as -> by (apply Nat.ltb_ge; unfold SANLK_PATH_LEN; lia).
      assert (Nat.ltb (length (sd_path d)) 1 = false) as -> by (apply Nat.ltb_ge; lia). cbn [andb orb].
      assert (Nat.eqb (2 + 2 * length done) 0 = false) as -> by (apply Nat.eqb_neq; lia).
      assert (Nat.eqb (2 + 2 * length done) 1 = false) as -> by (apply Nat.eqb_neq; lia).
      rewrite Nat.even_add_mul_2. cbn [Nat.even].
      assert (Nat.eqb (length done) nd = false) as -> by (apply Nat.eqb_neq; lia). rewrite andb_false_r.
      assert (Nat.ltb (length done) nd = true) as -> by (apply Nat.ltb_lt; lia).
      cbn [length repeat]. change (mkSdisk [] 0) with blank. rewrite nth_app_mid, set_nth_app. reflexivity. }
    rewrite F1. rewrite scan_plain; [|apply print_plain; exact O|].
    2:{ cbn [p_sub length]. destruct (print_llu_spec _ O) as (_ & _ & _ & Lp). unfold SANLK_PATH_LEN. lia. }
    cbn [p_sub app].
    set (st2 := with_sub _ _).
    assert (F2 : field nd hl st2 = SGo (mkPst [] (2 + 2 * length (done ++ [d])) (length (done ++ [d]))
                   (mkSres sp nm lv fl ((done ++ [d]) ++ repeat blank (length r))))).
    { unfold field, st2, with_sub. cbn [p_sub p_count p_d p_res sr_space sr_name sr_lver sr_flags sr_disks].
      destruct (print_llu_spec _ O) as (_ & _ & _ & Lp).
      assert (Nat.ltb (3 + 2 * length done) 2 = false) as -> by (apply Nat.ltb_ge; lia). cbn [andb].
      assert (Nat.leb 2 (3 + 2 * length done) = true) as -> by (apply Nat.leb_le; lia).
      assert (Nat.ltb (SANLK_PATH_LEN - 1) (length (print_llu (sd_offset d))) = false) as -> by (apply Nat.ltb_ge; unfold SANLK_PATH_LEN; lia).
      assert (Nat.ltb (length (print_llu (sd_offset d))) 1 = false) as -> by (apply Nat.ltb_ge; lia). cbn [andb orb].
      assert (Nat.eqb (3 + 2 * length done) 0 = false) as -> by (apply Nat.eqb_neq; lia).
      assert (Nat.eqb (3 + 2 * length done) 1 = false) as -> by (apply Nat.eqb_neq; lia).
      rewrite Nat.even_add_mul_2. cbn [Nat.even]. rewrite sscanf_print by exact O.
      assert (Nat.ltb (length done) nd = true) as -> by (apply Nat.ltb_lt; lia).
      change (mkSdisk [] 0) with blank. rewrite nth_app_mid, set_nth_app. cbn [sd_path].
      rewrite app_length. cbn [length]. rewrite <- app_assoc. cbn [app].
      destruct d as [pa of]. cbn [sd_path sd_offset]. repeat f_equal; lia. }
    destruct (IH rest (done ++ [d]) st2 sp nm lv fl Fr ltac:(rewrite app_length; cbn [length]; lia) F2) as (st' & P & Fl).
    exists st'. split; [exact P|]. rewrite Fl, <- app_assoc. reflexivity.
Qed.

Lemma disks_str_ok : forall ds acc, (length acc + length (disks_tail ds) < SANLK_MAX_RES_STR)%nat ->
  disks_str ds acc = Some (acc ++ disks_tail ds).
Proof.
  induction ds as [|d r IH]; intros acc L; cbn [disks_str disks_tail flat_map]. { rewrite app_nil_r. reflexivity. }
  fold (disks_tail r). cbn [disks_tail flat_map] in L. fold (disks_tail r) in L. rewrite app_length in L.
  unfold snprintf_or_fail. destruct (Nat.leb _ _) eqn:E; [apply Nat.leb_le in E; lia|].
  rewrite IH; [rewrite <- app_assoc; reflexivity|rewrite app_length; lia].
Qed.

Lemma tail_length : forall ds, Forall disk_good ds -> (length (disks_tail ds) <= 1046 * length ds)%nat.
Proof.
  induction ds as [|d r IH]; intros F; [cbn; lia|]. inversion F as [|? ? G Fr]; subst.
  cbn [disks_tail flat_map]. fold (disks_tail r). rewrite app_length, (disk_str_eq d G). specialize (IH Fr).
  destruct G as (C & L & LE & O). destruct (print_llu_spec _ O) as (_ & _ & _ & Lp).
  cbn [length]. rewrite app_length. cbn [length]. lia.
Qed.

Definition name_good (s : bytes) : Prop := plain s /\ (length s <= 47)%nat.
Definition res_good (r : sres) : Prop :=
  name_good (sr_space r) /\ name_good (sr_name r) /\ Forall disk_good (sr_disks r) /\
  (1 <= length (sr_disks r) <= 4)%nat /\ sr_lver r < 2 ^ 64.
(* what the string form keeps *)
Definition res_kept (r : sres) : sres :=
  if has_shared (sr_flags r) then mkSres (sr_space r) (sr_name r) 0 RES_SHARED (sr_disks r)
  else mkSres (sr_space r) (sr_name r) (sr_lver r) RES_LVER (sr_disks r).

Lemma print_not_SH : forall n, n < 2 ^ 64 -> begins_SH (print_llu n) = false.
Proof.
  intros n L. destruct (print_llu_spec n L) as (_ & R & _). destruct (print_llu n) as [|a [|b l]]; try reflexivity.
  cbn [begins_SH]. specialize (R a (or_introl eq_refl)). assert (a =? 83 = false) as -> by lia. reflexivity.
Qed.

Lemma res_round_trip : forall r, res_good r -> exists s, res_to_str r = Some s /\ str_to_res s = POk (res_kept r).
Proof.
  intros r ((Ps & Ls) & (Pn & Ln) & FD & LD & LV).
  set (lastf := if has_shared (sr_flags r) then [83; 72] else print_llu (sr_lver r)).
  assert (LL : (1 <= length lastf <= 20)%nat).
  { unfold lastf. destruct (has_shared _); [cbn; lia|]. apply (print_llu_spec _ LV). }
  assert (PL : plain lastf).
  { unfold lastf. destruct (has_shared _); [|apply print_plain; exact LV].
    intros c [<-|[<-|[]]]; unfold BS, CO; lia. }
  assert (TL := tail_length _ FD).
  assert (M44 : SANLK_MAX_RES_STR = N.to_nat 4400) by reflexivity.
  exists (sr_space r ++ CO :: sr_name r ++ disks_tail (sr_disks r) ++ CO :: lastf). split.
  - unfold res_to_str, snprintf_or_fail. cbn [length app].
    destruct (Nat.leb (SANLK_MAX_RES_STR - 0) _) eqn:E1.
    { apply Nat.leb_le in E1. rewrite app_length in E1. cbn [length] in E1. lia. }
    rewrite disks_str_ok.
    2:{ rewrite app_length. cbn [length]. lia. }
    replace (if has_shared (sr_flags r) then [CO; 83; 72] else CO :: print_llu (sr_lver r)) with (CO :: lastf).
    2:{ unfold lastf. destruct (has_shared _); reflexivity. }
    cbn zeta. destruct (Nat.ltb _ _) eqn:E2.
    { apply Nat.ltb_lt in E2. rewrite !app_length in E2. cbn [length] in E2. lia. }
    rewrite firstn_all2. { rewrite <- !app_assoc. cbn [app]. reflexivity. }
    rewrite !app_length. cbn [length]. lia.
  - set (nd := length (sr_disks r)).
    assert (CC : count_colons (sr_space r ++ CO :: sr_name r ++ disks_tail (sr_disks r) ++ CO :: lastf) = (2 * nd + 2)%nat).
    { rewrite colons_plain by exact Ps. rewrite colons_co, colons_plain by exact Pn. rewrite colons_tail by exact FD.
      rewrite colons_co. rewrite <- (app_nil_r lastf), colons_plain by exact PL. cbn [count_colons]. lia. }
    unfold str_to_res. rewrite CC.
    assert (Nat.ltb (length (sr_space r ++ CO :: sr_name r ++ disks_tail (sr_disks r) ++ CO :: lastf)) 3 = false) as ->.
    { apply Nat.ltb_ge. rewrite app_length. cbn [length]. rewrite !app_length. cbn [length]. lia. }
    assert (Nat.eqb (2 * nd + 2) 0 || Nat.eqb (2 * nd + 2) 2 = false) as ->.
    { apply orb_false_iff. split; apply Nat.eqb_neq; lia. }
    assert (Hq : ((2 * nd + 2 - 1) / 2 = nd)%nat) by (symmetry; apply (Nat.div_unique _ 2 nd 1); lia).
    assert (Hm : ((2 * nd + 2 - 1) mod 2 = 1)%nat) by (symmetry; apply (Nat.mod_unique _ 2 nd 1); lia).
    cbn zeta. rewrite Hq, Hm. cbn [Nat.eqb].
    assert (Nat.ltb SANLK_MAX_DISKS nd = false) as -> by (apply Nat.ltb_ge; unfold SANLK_MAX_DISKS; lia).
    rewrite scan_plain; [|exact Ps|cbn [p_sub length]; unfold SANLK_PATH_LEN; lia].
    rewrite scan_colon. cbn [p_sub app with_sub p_count p_d p_res].
    assert (F0 : field nd true (mkPst (sr_space r) 0 0 (mkSres [] [] 0 0 (repeat (mkSdisk [] 0) nd)))
               = SGo (mkPst [] 1 0 (mkSres (sr_space r) [] 0 0 (repeat blank nd)))).
    { unfold field. cbn [p_sub p_count p_d p_res].
      assert (Nat.ltb SANLK_NAME_LEN (length (sr_space r)) = false) as -> by (apply Nat.ltb_ge; unfold SANLK_NAME_LEN; lia).
      reflexivity. }
    unfold with_sub in *. cbn [p_count p_d p_res] in *. rewrite F0.
    rewrite scan_plain; [|exact Pn|cbn [p_sub length]; unfold SANLK_PATH_LEN; lia].
    cbn [p_sub app]. unfold with_sub. cbn [p_count p_d p_res].
    set (st1 := mkPst _ _ _ _).
    assert (F1 : field nd true st1 = SGo (mkPst [] (2 + 2 * length (@nil sdisk)) (length (@nil sdisk))
                   (mkSres (sr_space r) (sr_name r) 0 0 ([] ++ repeat blank (length (sr_disks r)))))).
    { unfold field, st1. cbn [p_sub p_count p_d p_res].
      assert (Nat.ltb SANLK_NAME_LEN (length (sr_name r)) = false) as -> by (apply Nat.ltb_ge; unfold SANLK_NAME_LEN; lia).
      reflexivity. }
    destruct (scan_disks true nd (sr_disks r) (CO :: lastf) [] st1 _ _ _ _ FD eq_refl F1) as (st' & P & Fl).
    rewrite P, scan_colon, Fl. rewrite <- (app_nil_r lastf), scan_plain; [|exact PL|cbn [p_sub length]; unfold SANLK_PATH_LEN; lia].
    cbn [p_sub app parse_loop]. unfold with_sub. cbn [p_count p_d p_res].
    unfold field. cbn [p_sub p_count p_d p_res sr_space sr_name sr_lver sr_flags sr_disks].
    assert (Nat.ltb (2 + 2 * nd) 2 = false) as -> by (apply Nat.ltb_ge; lia). cbn [andb].
    assert (Nat.leb 2 (2 + 2 * nd) = true) as -> by (apply Nat.leb_le; lia).
    assert (Nat.ltb (SANLK_PATH_LEN - 1) (length lastf) = false) as -> by (apply Nat.ltb_ge; unfold SANLK_PATH_LEN; lia).
    assert (Nat.ltb (length lastf) 1 = false) as -> by (apply Nat.ltb_ge; lia). cbn [andb orb].
    assert (Nat.eqb (2 + 2 * nd) 0 = false) as -> by (apply Nat.eqb_neq; lia).
    assert (Nat.eqb (2 + 2 * nd) 1 = false) as -> by (apply Nat.eqb_neq; lia).
    rewrite Nat.even_add_mul_2. cbn [Nat.even]. rewrite Nat.eqb_refl. cbn [andb].
    unfold res_kept, lastf. destruct (has_shared (sr_flags r)).
    + reflexivity.
    + rewrite print_not_SH by exact LV. rewrite strtoull_print by exact LV. reflexivity.
Qed.
