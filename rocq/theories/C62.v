(* C62: a lockspace string names the lockspace it was written for *)
From Coq Require Import List NArith ZArith Lia Bool Arith ZifyBool ZifyN ZifyNat.
From Verif Require Import Bytes Strings StringsRound ArgStr.
Import ListNotations.
Open Scope N_scope.

(* ---- specification ---- *)
(* e is a way to write the path p: colons have a backslash in front of them, other characters may have one *)
Inductive written : bytes -> bytes -> Prop :=
| W_nil : written [] []
| W_plain c e p : c <> 0 -> c <> 58 -> c <> 92 -> written e p -> written (c :: e) (c :: p)
| W_esc c e p : c <> 0 -> c <> 92 -> written e p -> written (92 :: c :: e) (c :: p).
(* the characters of a name that mean nothing special *)
Definition name_ok (s : bytes) : Prop := Forall (fun c => c <> 0 /\ c <> 58 /\ c <> 92) s.
(* decimal notation: v is the value of the digits s *)
Fixpoint value (s : bytes) (acc : N) : N := match s with [] => acc | c :: r => value r (acc * 10 + (c - 48)) end.
Definition decimal (s : bytes) (v : N) : Prop := s <> [] /\ Forall (fun c => 48 <= c <= 57) s /\ value s 0 = v.

(* ---- proofs ---- *)
Lemma cut_plain n s r cur : Forall (fun c => c <> 58 /\ c <> 92) s -> cut_colons n (s ++ r) cur = cut_colons n r (cur ++ s).
Proof.
  intros F. revert cur. induction F as [|c s (H1 & H2) F IH]; intros cur; [rewrite app_nil_r; reflexivity|].
  cbn [app cut_colons]. unfold BS, CO.
  destruct (N.eqb_spec c 92); [contradiction|].
  replace (c =? 58) with false by (symmetry; apply N.eqb_neq; exact H1).
  destruct n; rewrite IH, <- app_assoc; reflexivity.
Qed.

Lemma cut_written n e p r cur : written e p -> cut_colons n (e ++ r) cur = cut_colons n r (cur ++ e).
Proof.
  intros W. revert cur. induction W as [|c e p H0 H1 H2 W IH|c e p H0 H1 W IH]; intros cur; [rewrite app_nil_r; reflexivity| |].
  - change ((c :: e) ++ r) with ([c] ++ e ++ r). rewrite cut_plain by (repeat constructor; assumption).
    rewrite IH, <- app_assoc. reflexivity.
  - cbn [app cut_colons]. unfold BS. change (92 =? 92) with true. cbn iota. rewrite IH, <- app_assoc. reflexivity.
Qed.

Lemma cut_colon n r cur : cut_colons (S n) (58 :: r) cur = cur :: cut_colons n r [].
Proof. reflexivity. Qed.

Lemma digits_value s acc : Forall (fun c => 48 <= c <= 57) s -> digits 10 s acc = value s acc.
Proof.
  intros F. revert acc. induction F as [|c s H F IH]; intros acc; [reflexivity|].
  cbn [digits value]. unfold digit_of. replace ((48 <=? c) && (c <=? 57)) with true by lia.
  replace (c - 48 <? 10) with true by lia. apply IH.
Qed.

Lemma digit_first s t : s <> [] -> Forall (fun c => 48 <= c <= 57) s -> split_sign (skip_space (s ++ t)) = (false, s ++ t).
Proof.
  intros NE F. destruct F as [|c s H F]; [contradiction|]. cbn [app skip_space]. unfold is_space.
  replace ((c =? 32) || (9 <=? c) && (c <=? 13)) with false by lia.
  cbn [split_sign]. replace (c =? 45) with false by lia. replace (c =? 43) with false by lia. reflexivity.
Qed.

Lemma atoll_decimal s v : decimal s v -> v < 2 ^ 63 -> u64 (atoll s) = v.
Proof.
  intros (NE & F & V) L. unfold atoll. rewrite <- (app_nil_r s), digit_first by assumption. rewrite app_nil_r.
  rewrite digits_value by assumption. rewrite V. unfold clamp_ll, u64.
  rewrite Z.mod_small; lia.
Qed.

Lemma import_written dl e p j : written e p -> (j + length p < dl)%nat -> path_import_w dl e j = (p ++ [0], true).
Proof.
  intros W. revert j. induction W as [|c e p H0 H1 H2 W IH|c e p H0 H1 W IH]; intros j L.
  - cbn [length] in L. cbn [path_import_w]. replace (Nat.leb dl j) with false by (symmetry; apply Nat.leb_gt; lia). reflexivity.
  - cbn [length] in L. cbn [path_import_w]. replace (Nat.leb dl j) with false by (symmetry; apply Nat.leb_gt; lia). unfold BS.
    replace (c =? 92) with false by (symmetry; apply N.eqb_neq; assumption). rewrite IH by lia. reflexivity.
  - cbn [length] in L. cbn [path_import_w]. replace (Nat.leb dl j) with false by (symmetry; apply Nat.leb_gt; lia). unfold BS.
    change (92 =? 92) with true. cbn iota. cbn [path_import_w]. replace (Nat.leb dl j) with false by (symmetry; apply Nat.leb_gt; lia).
    unfold BS. replace (c =? 92) with false by (symmetry; apply N.eqb_neq; assumption). rewrite IH by lia. reflexivity.
Qed.

Lemma written_nz e p : written e p -> forall c, In c p -> c <> 0.
Proof. induction 1; intros d I; [destruct I| |]; destruct I as [<-|I]; auto. Qed.

Lemma upto_nul_end s : (forall c, In c s -> c <> 0) -> upto_nul (s ++ [0]) = s.
Proof.
  induction s as [|c s IH]; intros H; [reflexivity|]. cbn [app upto_nul].
  replace (c =? 0) with false by (symmetry; apply N.eqb_neq; apply H; left; reflexivity).
  rewrite IH; [reflexivity|]. intros d I. apply H. right. exact I.
Qed.

Lemma decimal_plain s v : decimal s v -> Forall (fun c => c <> 58 /\ c <> 92) s.
Proof. intros (_ & F & _). eapply Forall_impl; [|exact F]. cbn. lia. Qed.

Theorem C62_names_the_lockspace : forall name h hid e path o off,
  name_ok name -> (length name <= 47)%nat -> decimal h hid -> hid < 2 ^ 63 ->
  written e path -> (length path <= 1023)%nat -> decimal o off -> off < 2 ^ 63 ->
  str_to_lockspace (name ++ 58 :: h ++ 58 :: e ++ 58 :: o) = mkSls name (Some hid) (Some path) (Some off).
Proof.
  intros name h hid e path o off NO NL DH HL W PL DO OL. unfold str_to_lockspace.
  assert (PN : Forall (fun c => c <> 58 /\ c <> 92) name) by (eapply Forall_impl; [|exact NO]; cbn; intros; tauto).
  rewrite cut_plain, cut_colon, cut_plain, cut_colon, (cut_written _ e path), cut_colon by eauto using decimal_plain.
  rewrite <- (app_nil_r o), cut_plain by eauto using decimal_plain. cbn [app cut_colons nth nth_error option_map].
  rewrite firstn_all2 by (unfold SANLK_NAME_LEN; lia).
  rewrite !(atoll_decimal _ _ DH), (atoll_decimal _ _ DO) by assumption.
  rewrite (import_written _ _ _ _ W) by (unfold SANLK_PATH_LEN; lia). cbn [fst].
  rewrite upto_nul_end by (eapply written_nz; exact W). reflexivity.
Qed.

(* whatever the string: the name is at most 48 bytes and a path never longer than its member *)
Lemma import_len dl e j : (j <= dl)%nat -> (length (fst (path_import_w dl e j)) <= dl - j)%nat.
Proof.
  revert j. induction e as [|c e IH]; intros j L; cbn [path_import_w].
  - destruct (Nat.leb_spec dl j); cbn [fst length]; lia.
  - destruct (Nat.leb_spec dl j); cbn [fst length]; [lia|]. destruct (c =? BS); [apply IH; lia|].
    specialize (IH (S j) ltac:(lia)). destruct (path_import_w dl e (S j)) as [w t]. cbn [fst length] in *. lia.
Qed.
Lemma upto_nul_le s : (length (upto_nul s) <= length s)%nat.
Proof. induction s as [|c s IH]; cbn [upto_nul length]; [lia|]. destruct (c =? 0); cbn [length]; lia. Qed.
Theorem C62_fits : forall s, (length (sl_name (str_to_lockspace s)) <= 48)%nat /\
  forall p, sl_path (str_to_lockspace s) = Some p -> (length p <= 1024)%nat.
Proof.
  intros s. unfold str_to_lockspace. cbn [sl_name sl_path]. split; [rewrite firstn_length; apply Nat.le_min_l|].
  intros p H. destruct (nth_error _ 2) as [x|]; [|discriminate]. cbn [option_map] in H. inversion H; subst.
  etransitivity; [apply upto_nul_le|]. etransitivity; [apply import_len; lia|]. unfold SANLK_PATH_LEN. lia.
Qed.

(* "LS:1:/a\:b:1048576" *)
Example C62_nonvacuous :
  name_ok [76; 83] /\ decimal [49] 1 /\ written [47; 97; 92; 58; 98] [47; 97; 58; 98] /\ decimal [49; 48; 52; 56; 53; 55; 54] 1048576 /\
  str_to_lockspace ([76; 83; 58; 49; 58; 47; 97; 92; 58; 98; 58; 49; 48; 52; 56; 53; 55; 54]) =
    mkSls [76; 83] (Some 1) (Some [47; 97; 58; 98]) (Some 1048576).
Proof.
  split; [repeat constructor; lia|]. split; [repeat split; [discriminate|repeat constructor; lia]|].
  split; [do 2 (apply W_plain; try lia); apply W_esc; try lia; apply W_plain; try lia; constructor|].
  split; [repeat split; [discriminate|repeat constructor; lia]|]. vm_compute. reflexivity.
Qed.

Print Assumptions C62_names_the_lockspace.
Print Assumptions C62_fits.
