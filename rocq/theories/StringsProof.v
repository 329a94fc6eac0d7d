(* Lemmas about the string conversions. *)
From Coq Require Import List NArith ZArith Lia Bool Arith ZifyBool ZifyN ZifyNat.
From Verif Require Import Bytes Strings.
Import ListNotations.
Open Scope N_scope.

(* two-step induction: the escape consumes two characters *)
Lemma str_ind : forall (P : bytes -> Prop),
  P [] -> (forall c, P [c]) -> (forall c r, P r -> (forall x r', r = x :: r' -> P r') -> P (c :: r)) -> forall s, P s.
Proof.
  intros P H0 H1 H2 s. enough (P s /\ forall x r, s = x :: r -> P r) by tauto.
  induction s as [|c r [IH1 IH2]]. { split; [exact H0|discriminate]. }
  split. { apply H2; auto. } { intros x r' E. injection E as -> ->. exact IH1. }
Qed.

(* ---------------- parser safety ---------------- *)
Lemma field_safe : forall colons st,
  (1 <= colons)%nat ->
  p_d st = ((p_count st - 2) / 2)%nat -> (p_count st <= colons)%nat ->
  let nd := ((colons - 1) / 2)%nat in let hl := Nat.eqb ((colons - 1) mod 2) 1 in
  field nd hl st <> SBad /\
  forall st', field nd hl st = SGo st' ->
    p_count st' = S (p_count st) /\ p_d st' = ((p_count st' - 2) / 2)%nat /\ p_sub st' = [] /\
    (length (sr_disks (p_res st)) = nd -> length (sr_disks (p_res st')) = nd).
Proof.
  intros colons st C1 D Le nd hl.
  assert (SN : forall (l : list sdisk) n x, (n < length l)%nat -> length (set_nth n x l) = length l).
  { intros l n x L. unfold set_nth. rewrite app_length. cbn [length]. rewrite firstn_length, skipn_length. lia. }
  assert (M : (colons - 1 = 2 * nd + (colons - 1) mod 2)%nat) by (apply Nat.div_mod; lia).
  assert (M2 : ((colons - 1) mod 2 < 2)%nat) by (apply Nat.mod_upper_bound; lia).
  unfold field.
  destruct (Nat.ltb (p_count st) 2 && _) eqn:E1; [split; [discriminate|intros ? [=]]|].
  destruct (Nat.leb 2 (p_count st) && _) eqn:E2; [split; [discriminate|intros ? [=]]|].
  destruct (Nat.eqb (p_count st) 0) eqn:E3.
  { apply Nat.eqb_eq in E3. split; [discriminate|]. intros st' [= <-]. cbn. rewrite D, E3. cbn. repeat split; auto. }
  destruct (Nat.eqb (p_count st) 1) eqn:E4.
  { apply Nat.eqb_eq in E4. split; [discriminate|]. intros st' [= <-]. cbn. rewrite D, E4. cbn. repeat split; auto. }
  apply Nat.eqb_neq in E3, E4.
  assert (Q : exists q, (p_count st - 2 = 2 * q \/ p_count st - 2 = 2 * q + 1)%nat /\ p_d st = q).
  { exists ((p_count st - 2) / 2)%nat. split; [|exact D].
    pose proof (Nat.div_mod (p_count st - 2) 2 ltac:(lia)).
    pose proof (Nat.mod_upper_bound (p_count st - 2) 2 ltac:(lia)). lia. }
  destruct Q as (q & Q & Dq). rewrite Dq.
  assert (DV : forall a b c, (a = 2 * b + c -> c < 2 -> a / 2 = b)%nat).
  { intros a b c Ea Lc. symmetry. apply (Nat.div_unique a 2 b c); lia. }
  destruct (Nat.even (p_count st)) eqn:Ev.
  - assert (Qe : (p_count st = 2 * q + 2)%nat).
    { destruct Q as [Q|Q]; [lia|]. exfalso. replace (p_count st) with (1 + 2 * (q + 1))%nat in Ev by lia.
      rewrite Nat.even_add_mul_2 in Ev. discriminate. }
    assert (Dn : ((S (p_count st) - 2) / 2 = q)%nat) by (apply (DV _ _ 1%nat); lia).
    destruct (hl && Nat.eqb q nd) eqn:E5.
    { destruct (begins_SH (p_sub st)); split; try discriminate; intros st' [= <-]; cbn [p_count p_d p_sub p_res sr_disks]; rewrite Dn; auto. }
    destruct (Nat.ltb q nd) eqn:E6.
    { apply Nat.ltb_lt in E6.
      split; [discriminate|]. intros st' [= <-]. cbn [p_count p_d p_sub p_res sr_disks]. rewrite Dn. do 3 (split; [reflexivity|]).
      intros L. rewrite SN; lia. }
    { apply Nat.ltb_ge in E6. exfalso. apply andb_false_iff in E5. unfold hl in E5.
      rewrite !Nat.eqb_neq in E5. lia. }
  - assert (Qe : (p_count st = 2 * q + 3)%nat).
    { destruct Q as [Q|Q]; [|lia]. exfalso. replace (p_count st) with (0 + 2 * (q + 1))%nat in Ev by lia.
      rewrite Nat.even_add_mul_2 in Ev. discriminate. }
    assert (Dn : ((S (p_count st) - 2) / 2 = S q)%nat) by (apply (DV _ _ 0%nat); lia).
    destruct (sscanf_llu (p_sub st)); [|split; [discriminate|intros ? [=]]].
    destruct (Nat.ltb q nd) eqn:E6.
    { apply Nat.ltb_lt in E6.
      split; [discriminate|]. intros st' [= <-]. cbn [p_count p_d p_sub p_res sr_disks]. rewrite Dn. do 3 (split; [reflexivity|]).
      intros L. rewrite SN; lia. }
    { apply Nat.ltb_ge in E6. lia. }
Qed.

Lemma push_safe : forall st c, push st c <> SBad /\
  forall st', push st c = SGo st' -> p_count st' = p_count st /\ p_d st' = p_d st.
Proof.
  intros st c. unfold push.
  destruct (Nat.leb SANLK_PATH_LEN _) eqn:E1; [split; [discriminate|intros ? [=]]|].
  destruct (Nat.leb (SANLK_PATH_LEN + 1) _) eqn:E2. { apply Nat.leb_gt in E1. apply Nat.leb_le in E2. lia. }
  split; [discriminate|]. intros st' [= <-]. auto.
Qed.

Lemma parse_loop_safe : forall colons, (1 <= colons)%nat -> forall s st,
  p_d st = ((p_count st - 2) / 2)%nat -> (p_count st + count_colons s <= colons)%nat ->
  parse_loop ((colons - 1) / 2)%nat (Nat.eqb ((colons - 1) mod 2) 1) s st <> PBad.
Proof.
  intros colons C1 s. induction s as [|c|c r IH IH2] using str_ind; intros st D Le.
  - cbn [parse_loop]. destruct (field_safe colons st C1 D) as (NB & _). { lia. }
    destruct (field _ _ st); congruence.
  - cbn [parse_loop]. cbn [count_colons] in Le. destruct (c =? BS); [discriminate|].
    destruct (negb (c =? CO)) eqn:EC.
    + destruct (push_safe st c) as (NB & Go). destruct (push st c) as [| |st'] eqn:Ep; try congruence.
      destruct (Go _ eq_refl) as (Gc & Gd).
      destruct (field_safe colons st' C1) as (NB' & _). { rewrite Gc, Gd; exact D. } { destruct (c =? CO); cbn in Le; lia. }
      destruct (field _ _ st'); congruence.
    + destruct (field_safe colons st C1 D) as (NB & Go). { lia. }
      destruct (field _ _ st) as [| |st'] eqn:Ef; try congruence.
      destruct (Go _ eq_refl) as (Gc & Gd & _).
      destruct (field_safe colons st' C1 Gd) as (NB' & _). { destruct (c =? CO); cbn in Le, EC; [lia|discriminate]. }
      destruct (field _ _ st'); congruence.
  - cbn [parse_loop]. cbn [count_colons] in Le. destruct (c =? BS).
    + destruct r as [|x r']; [discriminate|]. destruct (push_safe st x) as (NB & Go).
      destruct (push st x) as [| |st'] eqn:Ep; try congruence. destruct (Go _ eq_refl) as (Gc & Gd).
      apply (IH2 x r' eq_refl); [rewrite Gc, Gd; exact D|lia].
    + destruct (c =? CO) eqn:EC; cbn [negb].
      * destruct (field_safe colons st C1 D) as (NB & Go). { lia. }
        destruct (field _ _ st) as [| |st'] eqn:Ef; try congruence.
        destruct (Go _ eq_refl) as (Gc & Gd & _). apply IH; [exact Gd|lia].
      * destruct (push_safe st c) as (NB & Go).
        destruct (push st c) as [| |st'] eqn:Ep; try congruence. destruct (Go _ eq_refl) as (Gc & Gd).
        apply IH; [rewrite Gc, Gd; exact D|lia].
Qed.

Lemma str_to_res_safe : forall s, str_to_res s <> PBad.
Proof.
  intros s. unfold str_to_res. destruct (Nat.ltb (length s) 3); [discriminate|].
  destruct (Nat.eqb (count_colons s) 0 || Nat.eqb (count_colons s) 2) eqn:E; [discriminate|].
  apply orb_false_iff in E. destruct E as (E1 & E2). apply Nat.eqb_neq in E1.
  destruct (Nat.ltb SANLK_MAX_DISKS _); [discriminate|].
  apply parse_loop_safe; cbn; lia.
Qed.

(* ---------------- path export ---------------- *)
Lemma export_w_len : forall dstlen, (3 <= dstlen < 2 ^ 63)%Z -> forall s j,
  (0 <= j <= dstlen - 1)%Z ->
  (Z.of_nat (length (path_export_w dstlen s j)) + j <= dstlen - 1)%Z \/ 
  (exists w, path_export_w dstlen s j = w ++ [0] /\ (Z.of_nat (length w) + j <= dstlen - 1)%Z).
Proof.
  intros dl D. assert (S3 : size_sub dl 3 = (dl - 3)%Z) by (unfold size_sub; apply Z.mod_small; lia).
  assert (S2 : size_sub dl 2 = (dl - 2)%Z) by (unfold size_sub; apply Z.mod_small; lia).
  intros s. induction s as [|c|c r IH IH2] using str_ind; intros j J.
  - left. cbn. lia.
  - cbn [path_export_w]. rewrite S3, S2. destruct (c =? BS).
    + destruct (dl - 3 <? j)%Z eqn:E; [left; cbn [length]; lia|]. right. exists [BS]. split; [reflexivity|cbn [length]; lia].
    + destruct ((c =? SP) || (c =? CO)).
      * destruct (dl - 3 <? j)%Z eqn:E; left; cbn [length]; lia.
      * destruct (dl - 2 <? j)%Z eqn:E; left; cbn [length]; lia.
  - cbn [path_export_w]. rewrite S3, S2.
    destruct (c =? BS).
    + destruct (dl - 3 <? j)%Z eqn:E; [left; cbn [length]; lia|].
      destruct r as [|x r']. { right. exists [BS]. split; [reflexivity|cbn [length]; lia]. }
      destruct (IH2 x r' eq_refl (j + 2)%Z ltac:(lia)) as [L|(w & W & L)].
      * left. cbn [length]. lia.
      * right. exists (BS :: x :: w). rewrite W. split; [reflexivity|cbn [length]; lia].
    + destruct ((c =? SP) || (c =? CO)).
      * destruct (dl - 3 <? j)%Z eqn:E; [left; cbn [length]; lia|].
        destruct (IH (j + 2)%Z ltac:(lia)) as [L|(w & W & L)].
        { left. cbn [length]. lia. } { right. exists (BS :: c :: w). rewrite W. split; [reflexivity|cbn [length]; lia]. }
      * destruct (dl - 2 <? j)%Z eqn:E; [left; cbn [length]; lia|].
        destruct (IH (j + 1)%Z ltac:(lia)) as [L|(w & W & L)].
        { left. cbn [length]. lia. } { right. exists (c :: w). rewrite W. split; [reflexivity|cbn [length]; lia]. }
Qed.

Lemma import_w_len : forall dstlen s j,
  let '(w, t) := path_import_w dstlen s j in
  (j + length w <= max j dstlen)%nat /\ (t = true -> exists v, w = v ++ [0]).
Proof.
  intros dl s. induction s as [|c r IH]; intros j; cbn [path_import_w].
  - destruct (Nat.leb dl j) eqn:E; [split; [cbn [length]; lia|discriminate]|].
    apply Nat.leb_gt in E. split; [cbn [length]; lia|]. intros _. exists []. reflexivity.
  - destruct (Nat.leb dl j) eqn:E; [split; [cbn [length]; lia|discriminate]|]. apply Nat.leb_gt in E.
    destruct (c =? BS). { apply IH. }
    specialize (IH (S j)). destruct (path_import_w dl r (S j)) as [w t]. destruct IH as (L & T).
    split; [cbn [length]; lia|]. intros Ht. destruct (T Ht) as (v & ->). exists (c :: v). reflexivity.
Qed.

(* ---------------- state_to_args ---------------- *)
(* the first pass, one character at a time *)
Fixpoint spaces_from (skip : bool) (s : bytes) : nat :=
  match s with
  | [] => 0
  | c :: r => if skip then spaces_from false r
              else if c =? BS then spaces_from true r
              else if c =? SP then S (spaces_from false r) else spaces_from false r
  end.
Lemma count_spaces_from : forall s, count_spaces s = spaces_from false s.
Proof.
  intros s. induction s as [|c|c r IH IH2] using str_ind; cbn [count_spaces spaces_from].
  - reflexivity.
  - destruct (c =? BS); reflexivity.
  - destruct (c =? BS).
    + destruct r as [|x r']; [reflexivity|]. cbn [spaces_from]. apply (IH2 x r' eq_refl).
    + rewrite IH. reflexivity.
Qed.

(* an escape character may be added before each character *)
Lemma state_loop_safe : forall s count str skip esc colons args,
  (length str + 2 * length s <= SANLK_MAX_RES_STR)%nat ->
  (skip = true -> esc = true) ->
  (length args + spaces_from skip s < count)%nat ->
  state_loop count s str esc colons args <> ABad /\ state_loop count s str esc colons args <> AFreed.
Proof.
  assert (PB : forall str, (length str <= SANLK_MAX_RES_STR)%nat -> parse_buf str <> PBad).
  { intros str L. unfold parse_buf. destruct (Nat.leb _ _) eqn:E; [apply Nat.leb_le in E; lia|]. apply str_to_res_safe. }
  assert (RM : forall str n, (length str + n <= SANLK_MAX_RES_STR)%nat -> room str n = true).
  { intros str n L. unfold room. apply Nat.leb_le. lia. }
  intros s. induction s as [|c r IH]; intros count str skip esc colons args L SE C; cbn [state_loop].
  - cbn [spaces_from length] in *. pose proof (PB str ltac:(lia)) as N.
    destruct (parse_buf str) eqn:E; try congruence; [split; discriminate|].
    destruct (Nat.eqb (length args) count) eqn:E1; [apply Nat.eqb_eq in E1; lia|].
    destruct (Nat.ltb (length args) count) eqn:E2; [split; discriminate|apply Nat.ltb_ge in E2; lia].
  - cbn [length] in L. assert (R1 := RM str 1%nat ltac:(lia)). assert (R2 := RM str 2%nat ltac:(lia)). rewrite R1, R2.
    cbn [spaces_from] in C.
    destruct (c =? BS) eqn:EB.
    { apply (IH _ _ (negb skip)); [rewrite app_length; cbn [length]; lia|reflexivity|]. destruct skip; exact C. }
    destruct esc.
    { apply (IH _ _ false); [rewrite app_length; cbn [length]; lia|discriminate|]. destruct skip; [exact C|]. destruct (c =? SP); lia. }
    assert (skip = false) as -> by (destruct skip; [specialize (SE eq_refl); discriminate|reflexivity]).
    destruct (c =? SP) eqn:ES; cbn [andb negb].
    + destruct (Nat.ltb colons 3).
      { apply (IH _ _ false); [rewrite app_length; cbn [length]; lia|discriminate|lia]. }
      pose proof (PB str ltac:(lia)) as N. destruct (parse_buf str) eqn:E; try congruence; [split; discriminate|].
      destruct (Nat.eqb (length args) count) eqn:E1; [apply Nat.eqb_eq in E1; lia|].
      destruct (Nat.ltb (length args) count) eqn:E2; [|apply Nat.ltb_ge in E2; lia].
      apply (IH _ _ false); [cbn [length]; lia|discriminate|rewrite app_length; cbn [length]; lia].
    + apply (IH _ _ false); [rewrite app_length; cbn [length]; lia|discriminate|lia].
Qed.
