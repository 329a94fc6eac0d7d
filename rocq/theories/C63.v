(* C63: an offset given in megabytes on the command line means that many megabytes *)
From Coq Require Import List NArith ZArith Lia Bool Arith ZifyBool ZifyN ZifyNat.
From Verif Require Import Bytes Strings StringsRound ArgStr C62.
Import ListNotations.
Open Scope N_scope.

(* ---- specification ---- *)
(* a disk as it is given: the written path, the number, and whether M follows *)
Record adisk := mkAd { ad_path : bytes; ad_num : N; ad_m : bool }.
Definition given_off (d : adisk) : bytes := print_llu (ad_num d) ++ (if ad_m d then [77] else []).
Definition meant_off (d : adisk) : bytes := print_llu (if ad_m d then ad_num d * 1048576 else ad_num d).
Definition given (ds : list adisk) : bytes := flat_map (fun d => 58 :: ad_path d ++ 58 :: given_off d) ds.
Definition meant (ds : list adisk) : bytes := flat_map (fun d => 58 :: ad_path d ++ 58 :: meant_off d) ds.
Definition disk_ok (d : adisk) : Prop :=
  (exists p, written (ad_path d) p) /\ ad_num d < 2 ^ 63 /\ (ad_m d = true -> ad_num d * 1048576 < 2 ^ 63).

(* resource: the same as if all the offsets had been given in bytes *)
Definition C63_resource_statement : Prop := forall ls rn ds lver,
  name_ok ls -> name_ok rn -> ds <> [] -> Forall disk_ok ds -> (lver = [] \/ exists v, lver = 58 :: print_llu v) ->
  parse_arg_resource (ls ++ 58 :: rn ++ given ds ++ lver) = Some (str_to_res (ls ++ 58 :: rn ++ meant ds ++ lver)).
(* lockspace: likewise, whatever the memory held *)
Definition C63_lockspace_statement : Prop := forall junk name h hid d, length junk = 16%nat ->
  name_ok name -> decimal h hid -> disk_ok d ->
  parse_arg_lockspace junk (name ++ 58 :: h ++ given [d]) = Some (str_to_lockspace (name ++ 58 :: h ++ meant [d])).

(* ---- proofs ---- *)
Lemma strchr_none c s : ~ In c s -> strchr c s = None.
Proof.
  induction s as [|x s IH]; intros H; [reflexivity|]. cbn [strchr].
  replace (x =? c) with false by (symmetry; apply N.eqb_neq; intros ->; apply H; left; reflexivity).
  rewrite IH; [reflexivity|]. intros I. apply H. right. exact I.
Qed.
Lemma strchr_some c s r : ~ In c s -> strchr c (s ++ c :: r) = Some (s, r).
Proof.
  induction s as [|x s IH]; intros H; cbn [app strchr]; [rewrite N.eqb_refl; reflexivity|].
  replace (x =? c) with false by (symmetry; apply N.eqb_neq; intros ->; apply H; left; reflexivity).
  rewrite IH; [reflexivity|]. intros I. apply H. right. exact I.
Qed.

Lemma print_no c n : n < 2 ^ 64 -> c < 48 \/ 57 < c -> ~ In c (print_llu n).
Proof. intros L H I. destruct (print_llu_spec n L) as (_ & R & _). specialize (R c I). lia. Qed.

Lemma dec_short f n acc : (length (dec_aux f n acc) <= length acc + f)%nat.
Proof.
  revert n acc. induction f as [|f IH]; intros n acc; cbn [dec_aux]; [lia|].
  destruct (n / 10 =? 0); cbn [length]; [lia|]. specialize (IH (n / 10) ((48 + n mod 10) :: acc)). cbn [length] in IH. lia.
Qed.
Lemma dec_fuel f k n acc : n < 10 ^ N.of_nat f -> (1 <= f)%nat -> dec_aux (f + k) n acc = dec_aux f n acc.
Proof.
  revert n acc. induction f as [|f IH]; intros n acc L F; [lia|]. cbn [Nat.add dec_aux].
  destruct (n / 10 =? 0) eqn:E; [reflexivity|]. apply N.eqb_neq in E.
  assert (F1 : (1 <= f)%nat). { destruct f; [|lia]. cbn in L. exfalso. apply E. apply N.div_small. lia. }
  apply IH; [|exact F1]. apply N.div_lt_upper_bound; [lia|].
  replace (N.of_nat (S f)) with (N.succ (N.of_nat f)) in L by lia. rewrite N.pow_succ_r' in L. lia.
Qed.
Lemma print_short n : n < 10 ^ 13 -> (length (print_llu n) <= 13)%nat.
Proof.
  intros L. unfold print_llu. change 20%nat with (13 + 7)%nat. rewrite dec_fuel by (try lia; exact L).
  pose proof (dec_short 13 n []). cbn [length] in H. lia.
Qed.

Lemma ends_digits s t : Forall (fun c => 48 <= c <= 57) s -> ends (s ++ t) = ends t.
Proof. induction 1 as [|c s H F IH]; [reflexivity|]. cbn [app ends]. replace ((48 <=? c) && (c <=? 57)) with true by lia. exact IH. Qed.
Lemma digits_app s t acc : Forall (fun c => 48 <= c <= 57) s -> digits 10 (s ++ t) acc = digits 10 t (digits 10 s acc).
Proof.
  intros F. revert acc. induction F as [|c s H F IH]; intros acc; [reflexivity|]. cbn [app digits]. unfold digit_of.
  replace ((48 <=? c) && (c <=? 57)) with true by lia. replace (c - 48 <? 10) with true by lia. apply IH.
Qed.

Lemma no_digit x : x < 48 \/ 57 < x -> digit_of 10 x = None.
Proof.
  intros H. unfold digit_of. replace ((48 <=? x) && (x <=? 57)) with false by lia. cbv zeta.
  destruct ((97 <=? x) && (x <=? 102)) eqn:A; [replace (x - 87 <? 10) with false by lia; reflexivity|].
  destruct ((65 <=? x) && (x <=? 70)) eqn:B; [replace (x - 55 <? 10) with false by lia; reflexivity|]. reflexivity.
Qed.

(* the buffer is right if the byte behind the digits is not a digit *)
Lemma off_m_value init n x r : n * 1048576 < 2 ^ 63 -> x < 48 \/ 57 < x ->
  skipn (length (print_llu n)) init = x :: r -> off_m init (print_llu n) = Some (n * 1048576).
Proof.
  intros L X S. assert (L64 : n < 2 ^ 64) by lia.
  destruct (print_llu_spec n L64) as (D & R & _ & LL).
  pose proof (print_short n ltac:(change (10 ^ 13) with 10000000000000; change (2 ^ 63) with 9223372036854775808 in L; lia)) as SH.
  unfold off_m. replace (Nat.eqb (length (print_llu n)) 0 || Nat.ltb 16 (length (print_llu n))) with false
    by (symmetry; apply orb_false_intro; [apply Nat.eqb_neq|apply Nat.ltb_ge]; lia).
  rewrite S. unfold atoll_buf.
  assert (F : Forall (fun c => 48 <= c <= 57) (print_llu n)) by (apply Forall_forall; exact R).
  rewrite digit_first by (try assumption; intros E; rewrite E in LL; cbn in LL; lia).
  rewrite ends_digits, digits_app, D by exact F. cbn [ends digits].
  replace ((48 <=? x) && (x <=? 57)) with false by lia. rewrite no_digit by exact X. cbv zeta.
  replace ((- 2 ^ 63 <=? Z.of_N n * 1048576)%Z && (Z.of_N n * 1048576 <? 2 ^ 63)%Z) with true by lia.
  f_equal. unfold u64. rewrite Z.mod_small by lia. lia.
Qed.

Lemma name_no c s : name_ok s -> c = 58 \/ c = 92 \/ c = 0 -> ~ In c s.
Proof. intros F H I. unfold name_ok in F. rewrite Forall_forall in F. specialize (F c I). lia. Qed.

Lemma given_meant ds : Forall (fun d => ad_m d = false) ds -> given ds = meant ds.
Proof.
  induction 1 as [|d ds H F IH]; [reflexivity|]. unfold given, meant, given_off, meant_off in *. cbn [flat_map].
  rewrite H, IH, app_nil_r. reflexivity.
Qed.

Lemma given_no_m ds : Forall (fun d => ad_m d = false /\ ~ In 77 (ad_path d) /\ ad_num d < 2 ^ 63) ds -> ~ In 77 (given ds).
Proof.
  induction 1 as [|d ds (H & P & L) F IH]; [intros []|]. unfold given, given_off in *. cbn [flat_map]. rewrite H, app_nil_r.
  intros I. apply in_app_or in I. destruct I as [I|I]; [|exact (IH I)].
  cbn [In app] in I. destruct I as [I|I]; [discriminate|]. apply in_app_or in I. destruct I as [I|I]; [exact (P I)|].
  cbn [In] in I. destruct I as [I|I]; [discriminate|]. revert I. apply print_no; lia.
Qed.

(* what the daemon or the direct command gets, when nothing is given in megabytes *)
Lemma arg_no_m init w arg : ~ In 77 arg -> arg_string init w arg = Some arg.
Proof.
  intros H. unfold arg_string.
  assert (T : forall c s a b, strchr c s = Some (a, b) -> ~ In 77 s -> ~ In 77 b).
  { intros c s. induction s as [|x s IH]; intros a b E N; [discriminate|]. cbn [strchr] in E.
    destruct (x =? c); [inversion E; subst; intros I; apply N; right; exact I|].
    destruct (strchr c s) as [[a' b']|] eqn:E'; [|discriminate]. inversion E; subst.
    eapply IH; [reflexivity|]. intros I. apply N. right. exact I. }
  destruct (strchr CO arg) as [[a r1]|] eqn:E1; [|reflexivity].
  destruct (strchr CO r1) as [[b r2]|] eqn:E2; [|reflexivity].
  destruct (strchr CO r2) as [[c r3]|] eqn:E3; [|reflexivity].
  rewrite (strchr_none CH_M r3); [reflexivity|]. unfold CH_M. eauto.
Qed.
Theorem C63_no_m : forall junk arg, ~ In 77 arg ->
  parse_arg_resource arg = Some (str_to_res arg) /\ parse_arg_lockspace junk arg = Some (str_to_lockspace arg).
Proof. intros junk arg H. unfold parse_arg_resource, parse_arg_lockspace. rewrite !arg_no_m by exact H. split; reflexivity. Qed.

Lemma arg_with_m init (w : bool) a b c n rest x r : ~ In 58 a -> ~ In 58 b -> ~ In 58 c -> n * 1048576 < 2 ^ 63 ->
  x < 48 \/ 57 < x -> skipn (length (print_llu n)) init = x :: r -> (rest = [] \/ exists t, rest = 58 :: t) ->
  arg_string init w (a ++ 58 :: b ++ 58 :: c ++ 58 :: (print_llu n ++ [77]) ++ rest) =
  Some (a ++ 58 :: b ++ 58 :: c ++ 58 :: print_llu (n * 1048576) ++ (if w then rest else [])).
Proof.
  intros A B C L X S R. unfold arg_string, CO. rewrite strchr_some, strchr_some, strchr_some by assumption.
  rewrite <- app_assoc. cbn [app]. unfold CH_M. rewrite (strchr_some 77) by (apply print_no; lia).
  rewrite (off_m_value init n x r) by assumption. do 2 f_equal. f_equal. f_equal. f_equal. f_equal. f_equal. f_equal. f_equal.
  destruct w; [|reflexivity]. destruct R as [->|[t ->]].
  - rewrite strchr_none; [reflexivity|]. intros I. apply in_app_or in I. destruct I as [I|[I|[]]]; [|discriminate].
    revert I. apply print_no; lia.
  - change (print_llu n ++ 77 :: 58 :: t) with (print_llu n ++ [77] ++ 58 :: t). rewrite app_assoc, strchr_some; [reflexivity|].
    intros I. apply in_app_or in I. destruct I as [I|[I|[]]]; [|discriminate]. revert I. apply print_no; lia.
Qed.

Lemma arg_without_m init (w : bool) a b c t : ~ In 58 a -> ~ In 58 b -> ~ In 58 c -> ~ In 77 t ->
  arg_string init w (a ++ 58 :: b ++ 58 :: c ++ 58 :: t) = Some (a ++ 58 :: b ++ 58 :: c ++ 58 :: t).
Proof.
  intros A B C T. unfold arg_string, CO. rewrite strchr_some, strchr_some, strchr_some by assumption.
  rewrite strchr_none by exact T. reflexivity.
Qed.

(* What is missing: colons in the first path; M at another disk; M in the path of another disk when the first
   offset has none. *)
Theorem C63_resource_partial : forall ls rn d ds lver,
  name_ok ls -> name_ok rn -> disk_ok d -> (lver = [] \/ exists v, v < 2 ^ 64 /\ lver = 58 :: print_llu v) ->
  Forall (fun d => ad_m d = false /\ ad_num d < 2 ^ 63) ds ->
  ~ In 58 (ad_path d) ->
  (ad_m d = false -> Forall (fun d => ~ In 77 (ad_path d)) ds) ->
  parse_arg_resource (ls ++ 58 :: rn ++ given (d :: ds) ++ lver) = Some (str_to_res (ls ++ 58 :: rn ++ meant (d :: ds) ++ lver)).
Proof.
  intros ls rn d ds lver NL NR (_ & LN & LM) LV F C1 M. unfold parse_arg_resource.
  assert (G : given ds = meant ds) by (apply given_meant; eapply Forall_impl; [|exact F]; cbn; tauto).
  change (given (d :: ds)) with ((58 :: ad_path d ++ 58 :: given_off d) ++ given ds).
  change (meant (d :: ds)) with ((58 :: ad_path d ++ 58 :: meant_off d) ++ meant ds). rewrite <- G.
  assert (RS : given ds ++ lver = [] \/ exists t, given ds ++ lver = 58 :: t).
  { destruct ds as [|d' ds]; [|right; cbn; eauto]. cbn. destruct LV as [->|(v & _ & ->)]; eauto. }
  replace (ls ++ 58 :: rn ++ ((58 :: ad_path d ++ 58 :: given_off d) ++ given ds) ++ lver)
    with (ls ++ 58 :: rn ++ 58 :: ad_path d ++ 58 :: given_off d ++ given ds ++ lver)
    by (cbn [app]; rewrite <- !app_assoc; cbn [app]; rewrite <- ?app_assoc; reflexivity).
  replace (ls ++ 58 :: rn ++ ((58 :: ad_path d ++ 58 :: meant_off d) ++ given ds) ++ lver)
    with (ls ++ 58 :: rn ++ 58 :: ad_path d ++ 58 :: meant_off d ++ given ds ++ lver)
    by (cbn [app]; rewrite <- !app_assoc; cbn [app]; rewrite <- ?app_assoc; reflexivity).
  unfold given_off, meant_off. destruct (ad_m d) eqn:EM.
  - specialize (LM eq_refl).
    assert (SH : (length (print_llu (ad_num d)) <= 13)%nat)
      by (apply print_short; change (10 ^ 13) with 10000000000000; change (2 ^ 63) with 9223372036854775808 in LM; lia).
    rewrite (arg_with_m _ true ls rn (ad_path d) (ad_num d) (given ds ++ lver) 0 (repeat 0 (15 - length (print_llu (ad_num d))))); try assumption.
    + reflexivity.
    + apply name_no; auto.
    + apply name_no; auto.
    + left. reflexivity.
    + clear - SH. remember (length (print_llu (ad_num d))) as k eqn:E. clear E.
      do 14 (destruct k as [|k]; [reflexivity|]). lia.
  - rewrite app_nil_r. rewrite arg_without_m; [reflexivity|apply name_no; auto|apply name_no; auto|exact C1|].
    intros I. apply in_app_or in I. destruct I as [I|I]; [revert I; apply print_no; lia|].
    apply in_app_or in I. destruct I as [I|I].
    + revert I. apply given_no_m. specialize (M eq_refl). clear - F M.
      induction ds as [|d ds IH]; [constructor|]. inversion F; subst. inversion M; subst. constructor; [tauto|auto].
    + destruct LV as [->|(v & Lv & ->)]; [destruct I|]. destruct I as [I|I]; [discriminate|]. revert I. apply print_no; lia.
Qed.

(* What is missing: colons in the path; a digit in the byte of the stack behind the digits copied. *)
Theorem C63_lockspace_partial : forall junk name h hid d x r,
  name_ok name -> decimal h hid -> disk_ok d -> ~ In 58 (ad_path d) ->
  (ad_m d = true -> skipn (length (print_llu (ad_num d))) junk = x :: r /\ (x < 48 \/ 57 < x)) ->
  parse_arg_lockspace junk (name ++ 58 :: h ++ given [d]) = Some (str_to_lockspace (name ++ 58 :: h ++ meant [d])).
Proof.
  intros junk name h hid d x r NO (_ & DH & _) (_ & LN & LM) C1 J. unfold parse_arg_lockspace.
  assert (H58 : ~ In 58 h) by (intros I; rewrite Forall_forall in DH; specialize (DH 58 I); lia).
  unfold given, meant, given_off, meant_off. cbn [flat_map]. rewrite !app_nil_r. cbn [app]. destruct (ad_m d) eqn:EM.
  - destruct (J eq_refl) as [S X].
    rewrite <- (app_nil_r (print_llu (ad_num d) ++ [77])).
    rewrite (arg_with_m junk false name h (ad_path d) (ad_num d) [] x r); auto.
    + cbn [option_map]. rewrite app_nil_r. reflexivity.
    + apply name_no; auto.
  - rewrite app_nil_r. rewrite arg_without_m; [reflexivity|apply name_no; auto|exact H58|exact C1|apply print_no; lia].
Qed.

(* "l:r:p:1M:q:2M": the second disk is at byte 2 *)
Theorem C63_resource_refuted : ~ C63_resource_statement.
Proof.
  intros H. specialize (H [108] [114] [mkAd [112] 1 true; mkAd [113] 2 true] []
    ltac:(repeat constructor; lia) ltac:(repeat constructor; lia) ltac:(discriminate)).
  assert (W : forall c, c <> 0 -> c <> 58 -> c <> 92 -> exists p, written [c] p) by (intros; eexists; apply W_plain; try assumption; constructor).
  specialize (H ltac:(repeat constructor; try (apply W; lia); cbn; lia) ltac:(left; reflexivity)).
  vm_compute in H. discriminate.
Qed.
(* "l:1:p:1M" with a 0 digit left in the buffer: ten megabytes *)
Theorem C63_lockspace_refuted : ~ C63_lockspace_statement.
Proof.
  intros H. specialize (H ([48; 48] ++ repeat 0 14) [108] [49] 1 (mkAd [112] 1 true) eq_refl
    ltac:(repeat constructor; lia) ltac:(repeat split; [discriminate|repeat constructor; lia])).
  specialize (H ltac:(split; [eexists; apply W_plain; try lia; constructor|cbn; lia])).
  vm_compute in H. discriminate.
Qed.
(* "l:r:p:1:M:2": the M of another path makes the first offset megabytes *)
Theorem C63_path_refuted : exists arg, parse_arg_resource arg <> Some (str_to_res arg) /\
  arg = [108] ++ 58 :: [114] ++ given [mkAd [112] 1 false; mkAd [77] 2 false].
Proof. eexists. split; [|reflexivity]. vm_compute. discriminate. Qed.
(* "l:r:p\:q:1M": the escaped colon is taken for the third one *)
Theorem C63_colon_refuted :
  parse_arg_resource ([108] ++ 58 :: [114] ++ given [mkAd [112; 92; 58; 113] 1 true]) <>
  Some (str_to_res ([108] ++ 58 :: [114] ++ meant [mkAd [112; 92; 58; 113] 1 true])).
Proof. vm_compute. discriminate. Qed.
(* "l:r:p:" and M behind more than sixteen characters: the copy runs over the end of offstr *)
Theorem C63_overflow : parse_arg_resource ([108] ++ 58 :: [114] ++ 58 :: [112] ++ 58 :: repeat 49 17 ++ [77]) = None.
Proof. vm_compute. reflexivity. Qed.

Example C63_nonvacuous :
  name_ok [108] /\ disk_ok (mkAd [112] 3 true) /\
  parse_arg_resource ([108] ++ 58 :: [114] ++ given [mkAd [112] 3 true]) =
    Some (POk (mkSres [108] [114] 0 0 [mkSdisk [112] 3145728])).
Proof.
  split; [repeat constructor; lia|]. split; [split; [eexists; apply W_plain; try lia; constructor|cbn; lia]|].
  vm_compute. reflexivity.
Qed.

Print Assumptions C63_resource_partial.
Print Assumptions C63_lockspace_partial.
Print Assumptions C63_resource_refuted.
