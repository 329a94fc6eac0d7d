(* C61: the state string of several resources parses back to these resources *)
From Coq Require Import List NArith ZArith Lia Bool Arith ZifyBool ZifyN ZifyNat.
From Verif Require Import Bytes Strings StringsProof StringsRound StateStr.
Import ListNotations.
Open Scope N_scope.

(* ---- specification ---- *)
(* a resource the daemon returns for a held lease: terminated 48 byte names, one to four disks with
   terminated paths, 64 bit numbers *)
Definition resource (r : sres) : Prop :=
  ~ In 0 (sr_space r) /\ (1 <= length (sr_space r) <= 47)%nat /\
  ~ In 0 (sr_name r) /\ (1 <= length (sr_name r) <= 47)%nat /\
  (1 <= length (sr_disks r) <= 4)%nat /\
  (forall d, In d (sr_disks r) -> ~ In 0 (sd_path d) /\ (1 <= length (sd_path d) <= 1023)%nat /\ sd_offset d < 2 ^ 64) /\
  sr_lver r < 2 ^ 64.
(* the same lease: names, disks, mode and, if exclusive, version *)
Definition same (a b : sres) : Prop :=
  sr_space a = sr_space b /\ sr_name a = sr_name b /\ sr_disks a = sr_disks b /\
  N.testbit (sr_flags a) 2 = N.testbit (sr_flags b) 2 /\ (N.testbit (sr_flags a) 2 = false -> sr_lver a = sr_lver b).

Definition C61_statement : Prop := forall rs, rs <> [] -> Forall resource rs ->
  exists s rs', args_to_state rs = TOk s /\ state_to_args s = AOk rs' /\ Forall2 same rs rs'.

(* what the code needs: no colon or backslash in a name (spaces are allowed), no backslash in a path, and
   the escaped path fits *)
Definition ordinary (r : sres) : Prop :=
  ~ In 58 (sr_space r) /\ ~ In 92 (sr_space r) /\ ~ In 58 (sr_name r) /\ ~ In 92 (sr_name r) /\
  (forall d, In d (sr_disks r) -> ~ In 92 (sd_path d) /\
     (length (sd_path d) + length (filter (fun c => ((c =? 32) || (c =? 58))%N) (sd_path d)) <= 1024)%nat).

(* ---- proofs ---- *)
Lemma shared_bit : forall f, has_shared f = N.testbit f 2.
Proof.
  intros f. unfold has_shared, RES_SHARED. change 4 with (2 ^ 2).
  destruct (N.testbit f 2) eqn:E.
  - apply negb_true_iff, N.eqb_neq. intros H.
    assert (N.testbit (N.land f (2 ^ 2)) 2 = false) by (rewrite H; reflexivity).
    rewrite N.land_spec, E in H0. discriminate.
  - apply negb_false_iff, N.eqb_eq. apply N.bits_inj. intros i. rewrite N.land_spec, N.bits_0.
    destruct (N.eq_dec i 2) as [->|NE]; [rewrite E; reflexivity|].
    rewrite N.pow2_bits_false by congruence. apply andb_false_r.
Qed.

Lemma good_of : forall r, resource r -> ordinary r -> res_good r.
Proof.
  intros r (N1 & L1 & N2 & L2 & LD & DD & LV) (A1 & A2 & A3 & A4 & DB).
  split; [|split; [|split; [|split; [exact LD|exact LV]]]].
  - split; [|lia]. intros c I. unfold BS, CO in *. repeat split; intros ->; tauto.
  - split; [|lia]. intros c I. unfold BS, CO in *. repeat split; intros ->; tauto.
  - apply Forall_forall. intros d I. destruct (DD d I) as (Nd & Ld & Od). destruct (DB d I) as (Bd & Ed).
    split; [|split; [exact Ld|split; [|exact Od]]].
    + intros c Ic. unfold BS in *. split; intros ->; tauto.
    + rewrite esc_length. exact Ed.
Qed.

Lemma kept_same r : same r (res_kept r).
Proof.
  unfold same, res_kept. rewrite shared_bit. destruct (N.testbit (sr_flags r) 2) eqn:E; cbn [sr_space sr_name sr_disks sr_flags sr_lver]; repeat split; auto.
  discriminate.
Qed.

Definition lastf (r : sres) : bytes := if has_shared (sr_flags r) then [83; 72] else print_llu (sr_lver r).
Definition form (a b : bytes) (r : sres) : bytes := a ++ CO :: b ++ disks_tail (sr_disks r) ++ CO :: lastf r.

Lemma lastf_ok r : sr_lver r < 2 ^ 64 -> (1 <= length (lastf r) <= 20)%nat /\ plain (lastf r) /\ ~ In SP (lastf r).
Proof.
  intros LV. unfold lastf. destruct (has_shared _).
  - split; [cbn; lia|]. split; [intros c [<-|[<-|[]]]; unfold BS, CO; lia|]. unfold SP. cbn. intuition lia.
  - destruct (print_llu_spec _ LV) as (_ & R & P & L). split; [exact L|]. split; [apply print_plain; exact LV|].
    intros I. specialize (R _ I). unfold SP in R. lia.
Qed.

Lemma plain_clean s : plain s -> clean s.
Proof. intros P c I. destruct (P c I) as (A & B & _). auto. Qed.

Lemma res_form r : res_good r -> res_to_str r = Some (form (sr_space r) (sr_name r) r) /\ (length (form (sr_space r) (sr_name r) r) <= N.to_nat 4300)%nat.
Proof.
  intros ((Ps & Ls) & (Pn & Ln) & FD & LD & LV). destruct (lastf_ok r LV) as (LL & PL & _).
  assert (TL := tail_length _ FD). assert (M44 : SANLK_MAX_RES_STR = N.to_nat 4400) by reflexivity.
  assert (B : (length (form (sr_space r) (sr_name r) r) <= N.to_nat 4300)%nat).
  { unfold form. rewrite app_length. cbn [length]. rewrite !app_length. cbn [length]. lia. }
  split; [|exact B].
  unfold res_to_str, snprintf_or_fail. cbn [length app].
  destruct (Nat.leb (SANLK_MAX_RES_STR - 0) _) eqn:E1.
  { apply Nat.leb_le in E1. rewrite app_length in E1. cbn [length] in E1. lia. }
  rewrite disks_str_ok.
  2:{ rewrite app_length. cbn [length]. lia. }
  replace (if has_shared (sr_flags r) then [CO; 83; 72] else CO :: print_llu (sr_lver r)) with (CO :: lastf r).
  2:{ unfold lastf. destruct (has_shared _); reflexivity. }
  cbn zeta. destruct (Nat.ltb _ _) eqn:E2.
  { apply Nat.ltb_lt in E2. rewrite !app_length in E2. cbn [length] in E2. lia. }
  rewrite firstn_all2. { unfold form. rewrite <- !app_assoc. cbn [app]. reflexivity. }
  rewrite !app_length. cbn [length]. lia.
Qed.

(* a resource string with the spaces of the names escaped is parsed alike *)
Lemma parse_form r : res_good r -> str_to_res (form (esc (sr_space r)) (esc (sr_name r)) r) = POk (res_kept r).
Proof.
  intros ((Ps & Ls) & (Pn & Ln) & FD & LD & LV). destruct (lastf_ok r LV) as (LL & PL & _).
  unfold form. set (nd := length (sr_disks r)).
  pose proof (plain_clean _ Ps) as Cs. pose proof (plain_clean _ Pn) as Cn.
  assert (CC : count_colons (esc (sr_space r) ++ CO :: esc (sr_name r) ++ disks_tail (sr_disks r) ++ CO :: lastf r) = (2 * nd + 2)%nat).
  { rewrite colons_esc by exact Cs. rewrite colons_co, colons_esc by exact Cn. rewrite colons_tail by exact FD.
    rewrite colons_co. rewrite <- (app_nil_r (lastf r)), colons_plain by exact PL. cbn [count_colons]. lia. }
  assert (TL : (2 * nd <= length (disks_tail (sr_disks r)))%nat).
  { unfold nd. clear - FD. induction FD as [|d ds G F IH]; [cbn; lia|]. cbn [disks_tail flat_map length]. fold (disks_tail ds).
    rewrite app_length, (disk_str_eq d G). cbn [length]. rewrite app_length. cbn [length]. lia. }
  unfold str_to_res. rewrite CC.
  assert (Nat.ltb (length (esc (sr_space r) ++ CO :: esc (sr_name r) ++ disks_tail (sr_disks r) ++ CO :: lastf r)) 3 = false) as ->.
  { apply Nat.ltb_ge. rewrite app_length. cbn [length]. rewrite !app_length. cbn [length]. lia. }
  assert (Nat.eqb (2 * nd + 2) 0 || Nat.eqb (2 * nd + 2) 2 = false) as ->.
  { apply orb_false_iff. split; apply Nat.eqb_neq; lia. }
  assert (Hq : ((2 * nd + 2 - 1) / 2 = nd)%nat) by (symmetry; apply (Nat.div_unique _ 2 nd 1); lia).
  assert (Hm : ((2 * nd + 2 - 1) mod 2 = 1)%nat) by (symmetry; apply (Nat.mod_unique _ 2 nd 1); lia).
  cbn zeta. rewrite Hq, Hm. cbn [Nat.eqb].
  assert (Nat.ltb SANLK_MAX_DISKS nd = false) as -> by (apply Nat.ltb_ge; unfold SANLK_MAX_DISKS; lia).
  rewrite scan_esc; [|exact Cs|cbn [p_sub length]; unfold SANLK_PATH_LEN; lia].
  rewrite scan_colon. cbn [p_sub app with_sub p_count p_d p_res].
  assert (F0 : field nd true (mkPst (sr_space r) 0 0 (mkSres [] [] 0 0 (repeat (mkSdisk [] 0) nd)))
             = SGo (mkPst [] 1 0 (mkSres (sr_space r) [] 0 0 (repeat blank nd)))).
  { unfold field. cbn [p_sub p_count p_d p_res].
    assert (Nat.ltb SANLK_NAME_LEN (length (sr_space r)) = false) as -> by (apply Nat.ltb_ge; unfold SANLK_NAME_LEN; lia).
    reflexivity. }
  unfold with_sub in *. cbn [p_count p_d p_res] in *. rewrite F0.
  rewrite scan_esc; [|exact Cn|cbn [p_sub length]; unfold SANLK_PATH_LEN; lia].
  cbn [p_sub app]. unfold with_sub. cbn [p_count p_d p_res].
  set (st1 := mkPst _ _ _ _).
  assert (F1 : field nd true st1 = SGo (mkPst [] (2 + 2 * length (@nil sdisk)) (length (@nil sdisk))
                 (mkSres (sr_space r) (sr_name r) 0 0 ([] ++ repeat blank (length (sr_disks r)))))).
  { unfold field, st1. cbn [p_sub p_count p_d p_res].
    assert (Nat.ltb SANLK_NAME_LEN (length (sr_name r)) = false) as -> by (apply Nat.ltb_ge; unfold SANLK_NAME_LEN; lia).
    reflexivity. }
  destruct (scan_disks true nd (sr_disks r) (CO :: lastf r) [] st1 _ _ _ _ FD eq_refl F1) as (st' & P & Fl).
  rewrite P, scan_colon, Fl. rewrite <- (app_nil_r (lastf r)), scan_plain; [|exact PL|cbn [p_sub length]; unfold SANLK_PATH_LEN; lia].
  cbn [p_sub app parse_loop]. unfold with_sub. cbn [p_count p_d p_res].
  unfold field. cbn [p_sub p_count p_d p_res sr_space sr_name sr_lver sr_flags sr_disks].
  assert (Nat.ltb (2 + 2 * nd) 2 = false) as -> by (apply Nat.ltb_ge; lia). cbn [andb].
  assert (Nat.leb 2 (2 + 2 * nd) = true) as -> by (apply Nat.leb_le; lia).
  assert (Nat.ltb (SANLK_PATH_LEN - 1) (length (lastf r)) = false) as -> by (apply Nat.ltb_ge; unfold SANLK_PATH_LEN; lia).
  assert (Nat.ltb (length (lastf r)) 1 = false) as -> by (apply Nat.ltb_ge; lia). cbn [andb orb].
  assert (Nat.eqb (2 + 2 * nd) 0 = false) as -> by (apply Nat.eqb_neq; lia).
  assert (Nat.eqb (2 + 2 * nd) 1 = false) as -> by (apply Nat.eqb_neq; lia).
  rewrite Nat.even_add_mul_2. cbn [Nat.even]. rewrite Nat.eqb_refl. cbn [andb].
  unfold res_kept, lastf. destruct (has_shared (sr_flags r)).
  - reflexivity.
  - rewrite print_not_SH by exact LV. rewrite strtoull_print by exact LV. reflexivity.
Qed.

(* ---- the loop of state_to_args ---- *)
Definition CAP : nat := (SANLK_MAX_RES_STR + 1)%nat.

Lemma room_ok str n : (length str + n <= CAP)%nat -> room str n = true.
Proof. intros H. apply Nat.leb_le. exact H. Qed.

Lemma sl_name count : forall s rest str k args, plain s -> (k < 3)%nat -> (length str + length (esc s) <= CAP)%nat ->
  state_loop count (s ++ rest) str false k args = state_loop count rest (str ++ esc s) false k args.
Proof.
  induction s as [|c r IH]; intros rest str k args P K L; [rewrite app_nil_r; reflexivity|].
  destruct (plain_cons _ _ P) as (C0 & CB & CC & Pr). cbn [esc flat_map] in *. fold (esc r) in *. rewrite app_length in L.
  cbn [app state_loop]. assert (c =? BS = false) as -> by (apply N.eqb_neq; exact CB).
  unfold esc1 in *. assert (E : c =? CO = false) by (apply N.eqb_neq; exact CC). rewrite E, orb_false_r in *.
  assert (Nat.ltb k 3 = true) as -> by (apply Nat.ltb_lt; exact K).
  destruct (c =? SP); cbn [andb negb length app] in *.
  - rewrite room_ok by lia. rewrite IH; auto; [rewrite <- app_assoc; reflexivity|rewrite app_length; cbn [length]; lia].
  - rewrite room_ok by lia. rewrite IH; auto; [rewrite <- app_assoc; reflexivity|rewrite app_length; cbn [length]; lia].
Qed.

Lemma sl_esc count : forall s rest str k args, clean s -> (length str + length (esc s) <= CAP)%nat ->
  state_loop count (esc s ++ rest) str false k args = state_loop count rest (str ++ esc s) false k args.
Proof.
  induction s as [|c r IH]; intros rest str k args P L; [rewrite app_nil_r; reflexivity|].
  destruct (clean_cons _ _ P) as (C0 & CB & Pr). cbn [esc flat_map] in *. fold (esc r) in *. rewrite app_length in L.
  rewrite <- app_assoc. assert (E : c =? BS = false) by (apply N.eqb_neq; exact CB).
  unfold esc1 in *. destruct ((c =? SP) || (c =? CO)) eqn:X; cbn [length app] in *.
  - cbn [state_loop]. rewrite N.eqb_refl, E. rewrite room_ok by lia. rewrite room_ok by (rewrite app_length; cbn [length]; lia).
    rewrite IH; auto; [rewrite <- !app_assoc; reflexivity|rewrite !app_length; cbn [length]; lia].
  - apply orb_false_iff in X. destruct X as (X1 & X2). cbn [state_loop]. rewrite E, X1, X2. cbn [andb negb]. rewrite room_ok by lia.
    rewrite IH; auto; [rewrite <- app_assoc; reflexivity|rewrite app_length; cbn [length]; lia].
Qed.

Lemma sl_plain count : forall s rest str k args, plain s -> ~ In SP s -> (length str + length s <= CAP)%nat ->
  state_loop count (s ++ rest) str false k args = state_loop count rest (str ++ s) false k args.
Proof.
  induction s as [|c r IH]; intros rest str k args P NS L; [rewrite app_nil_r; reflexivity|].
  destruct (plain_cons _ _ P) as (C0 & CB & CC & Pr). cbn [length] in L. cbn [app state_loop].
  assert (c =? BS = false) as -> by (apply N.eqb_neq; exact CB). assert (c =? CO = false) as -> by (apply N.eqb_neq; exact CC).
  assert (c =? SP = false) as -> by (apply N.eqb_neq; intros ->; apply NS; left; reflexivity). cbn [andb negb].
  rewrite room_ok by lia. rewrite IH; auto; [rewrite <- app_assoc; reflexivity| |rewrite app_length; cbn [length]; lia].
  intros I. apply NS. right. exact I.
Qed.

Lemma sl_colon count rest str k args : (length str + 1 <= CAP)%nat ->
  state_loop count (CO :: rest) str false k args = state_loop count rest (str ++ [CO]) false (S k) args.
Proof. intros L. cbn [state_loop]. change (CO =? BS) with false. change (CO =? SP) with false. cbn [andb negb]. rewrite room_ok by exact L. reflexivity. Qed.

Lemma print_nosp n : n < 2 ^ 64 -> ~ In SP (print_llu n).
Proof. intros L I. destruct (print_llu_spec _ L) as (_ & R & _). specialize (R _ I). unfold SP in R. lia. Qed.

Lemma sl_tail count : forall ds rest str k args, Forall disk_good ds -> (length str + length (disks_tail ds) <= CAP)%nat ->
  state_loop count (disks_tail ds ++ rest) str false k args =
  state_loop count rest (str ++ disks_tail ds) false (k + 2 * length ds) args.
Proof.
  induction ds as [|d r IH]; intros rest str k args F L; [cbn; rewrite app_nil_r, Nat.add_0_r; reflexivity|].
  inversion F as [|? ? G Fr]; subst. cbn [disks_tail flat_map] in *. fold (disks_tail r) in *. rewrite app_length in L.
  rewrite (disk_str_eq d G) in *. pose proof G as (C & L1 & LE & O). cbn [length app] in L. rewrite app_length in L. cbn [length] in L.
  rewrite <- app_assoc. cbn [app]. rewrite sl_colon by lia. rewrite <- app_assoc. rewrite sl_esc; [|exact C|rewrite app_length; cbn [length]; lia].
  cbn [app]. rewrite sl_colon by (rewrite !app_length; cbn [length]; lia).
  rewrite sl_plain; [|apply print_plain; exact O|apply print_nosp; exact O|rewrite !app_length; cbn [length]; lia].
  rewrite IH; auto; [|rewrite !app_length; cbn [length]; lia].
  replace (k + 2 * length (d :: r))%nat with (S (S k) + 2 * length r)%nat by (cbn [length]; lia).
  f_equal. cbn [app]. rewrite <- !app_assoc. reflexivity.
Qed.

Lemma esc_len2 s : (length (esc s) <= 2 * length s)%nat.
Proof. induction s as [|c r IH]; [cbn; lia|]. cbn [esc flat_map]. fold (esc r). rewrite app_length. unfold esc1. destruct (_ || _); cbn [length]; lia. Qed.

(* one resource of the state string *)
Lemma sl_form count r rest args : res_good r ->
  state_loop count (form (sr_space r) (sr_name r) r ++ rest) [] false 0 args =
  state_loop count rest (form (esc (sr_space r)) (esc (sr_name r)) r) false (2 + 2 * length (sr_disks r)) args
  /\ (length (form (esc (sr_space r)) (esc (sr_name r)) r) <= SANLK_MAX_RES_STR)%nat.
Proof.
  intros ((Ps & Ls) & (Pn & Ln) & FD & LD & LV). destruct (lastf_ok r LV) as (LL & PL & NS).
  assert (TL := tail_length _ FD). assert (M44 : SANLK_MAX_RES_STR = N.to_nat 4400) by reflexivity.
  pose proof (esc_len2 (sr_space r)). pose proof (esc_len2 (sr_name r)).
  assert (B : (length (form (esc (sr_space r)) (esc (sr_name r)) r) <= SANLK_MAX_RES_STR)%nat).
  { unfold form. rewrite app_length. cbn [length]. rewrite !app_length. cbn [length]. lia. }
  split; [|exact B]. unfold form in *. rewrite app_length in B. cbn [length] in B. rewrite !app_length in B. cbn [length] in B.
  rewrite <- app_assoc. rewrite sl_name; [|exact Ps|lia|cbn [length]; unfold CAP; lia]. cbn [app].
  rewrite sl_colon by (unfold CAP; lia). rewrite <- !app_assoc.
  rewrite sl_name; [|exact Pn|lia|rewrite !app_length; cbn [length]; unfold CAP; lia].
  rewrite sl_tail; [|exact FD|rewrite !app_length; cbn [length]; unfold CAP; lia].
  cbn [app]. rewrite sl_colon by (rewrite !app_length; cbn [length]; unfold CAP; lia).
  rewrite sl_plain; [|exact PL|exact NS|rewrite !app_length; cbn [length]; unfold CAP; lia].
  replace (S (1 + 2 * length (sr_disks r))) with (2 + 2 * length (sr_disks r))%nat by lia.
  f_equal. cbn [app]. repeat (rewrite <- app_assoc; cbn [app]). reflexivity.
Qed.

(* ---- the number of resources is not above the number of unescaped spaces plus one ---- *)
Lemma cs_plain : forall s rest, plain s -> (count_spaces rest <= count_spaces (s ++ rest))%nat.
Proof.
  induction s as [|c r IH]; intros rest P; [cbn; lia|]. destruct (plain_cons _ _ P) as (C0 & CB & CC & Pr).
  cbn [app count_spaces]. assert (c =? BS = false) as -> by (apply N.eqb_neq; exact CB). specialize (IH rest Pr).
  destruct (c =? SP); lia.
Qed.
Lemma cs_esc : forall s rest, clean s -> (count_spaces rest <= count_spaces (esc s ++ rest))%nat.
Proof.
  induction s as [|c r IH]; intros rest P; [cbn; lia|]. destruct (clean_cons _ _ P) as (C0 & CB & Pr).
  cbn [esc flat_map]. fold (esc r). rewrite <- app_assoc. specialize (IH rest Pr). unfold esc1.
  destruct ((c =? SP) || (c =? CO)) eqn:X; cbn [app count_spaces].
  - rewrite N.eqb_refl. exact IH.
  - apply orb_false_iff in X. destruct X as (-> & _). assert (c =? BS = false) as -> by (apply N.eqb_neq; exact CB). exact IH.
Qed.
Lemma cs_tail : forall ds rest, Forall disk_good ds -> (count_spaces rest <= count_spaces (disks_tail ds ++ rest))%nat.
Proof.
  induction ds as [|d r IH]; intros rest F; [cbn; lia|]. inversion F as [|? ? G Fr]; subst.
  cbn [disks_tail flat_map]. fold (disks_tail r). rewrite (disk_str_eq d G), <- app_assoc. pose proof G as (C & L1 & LE & O).
  cbn [app count_spaces]. change (CO =? BS) with false. change (CO =? SP) with false. cbv iota.
  rewrite <- app_assoc. etransitivity; [|apply cs_esc; exact C]. cbn [app count_spaces]. change (CO =? BS) with false. change (CO =? SP) with false. cbv iota.
  etransitivity; [apply (IH rest Fr)|apply cs_plain, print_plain; exact O].
Qed.
Lemma cs_form r rest : res_good r -> (count_spaces rest <= count_spaces (form (sr_space r) (sr_name r) r ++ rest))%nat.
Proof.
  intros ((Ps & Ls) & (Pn & Ln) & FD & LD & LV). destruct (lastf_ok r LV) as (LL & PL & NS).
  unfold form. rewrite <- app_assoc. etransitivity; [|apply cs_plain; exact Ps].
  cbn [app count_spaces]. change (CO =? BS) with false. change (CO =? SP) with false. cbv iota. rewrite <- !app_assoc.
  etransitivity; [|apply cs_plain; exact Pn]. etransitivity; [|apply cs_tail; exact FD].
  cbn [app count_spaces]. change (CO =? BS) with false. change (CO =? SP) with false. cbv iota. apply cs_plain. exact PL.
Qed.

(* ---- whole states ---- *)
Fixpoint states (rs : list sres) : bytes :=
  match rs with
  | [] => []
  | [r] => form (sr_space r) (sr_name r) r
  | r :: rest => form (sr_space r) (sr_name r) r ++ SP :: states rest
  end.
Lemma states_cons r x rest : states (r :: x :: rest) = form (sr_space r) (sr_name r) r ++ SP :: states (x :: rest).
Proof. reflexivity. Qed.

Lemma count_states : forall rs, Forall res_good rs -> (length rs <= S (count_spaces (states rs)))%nat.
Proof.
  induction rs as [|r [|x rest] IH]; intros F; [cbn; lia|cbn [length]; lia|].
  inversion F as [|? ? G Fr]; subst. rewrite states_cons. pose proof (cs_form r (SP :: states (x :: rest)) G) as C.
  specialize (IH Fr). cbn [length] in *. cbn [count_spaces] in C. change (SP =? BS) with false in C. change (SP =? SP) with true in C. cbv iota in C. lia.
Qed.

Lemma buf_parse r : res_good r -> parse_buf (form (esc (sr_space r)) (esc (sr_name r)) r) = POk (res_kept r).
Proof.
  intros G. unfold parse_buf. destruct (sl_form 0 r [] [] G) as [_ B].
  destruct (Nat.leb (SANLK_MAX_RES_STR + 1) _) eqn:E; [apply Nat.leb_le in E; lia|]. apply parse_form. exact G.
Qed.

Lemma loop_states count : forall rs args, rs <> [] -> Forall res_good rs -> (length args + length rs <= count)%nat ->
  state_loop count (states rs) [] false 0 args = AOk (args ++ map res_kept rs).
Proof.
  induction rs as [|r [|x rest] IH]; intros args NE F L; [contradiction| |]; inversion F as [|? ? G Fr]; subst.
  - cbn [states length] in *. rewrite <- (app_nil_r (form _ _ _)). destruct (sl_form count r [] args G) as [-> _].
    cbn [state_loop]. rewrite (buf_parse r G). assert (Nat.eqb (length args) count = false) as -> by (apply Nat.eqb_neq; lia).
    assert (Nat.ltb (length args) count = true) as -> by (apply Nat.ltb_lt; lia). reflexivity.
  - rewrite states_cons. destruct (sl_form count r (SP :: states (x :: rest)) args G) as [-> _]. cbn [length] in L.
    cbn [state_loop]. change (SP =? BS) with false. change (SP =? SP) with true.
    assert (LD : (1 <= length (sr_disks r))%nat) by apply G.
    assert (Nat.ltb (2 + 2 * length (sr_disks r)) 3 = false) as -> by (apply Nat.ltb_ge; lia). cbn [andb negb].
    rewrite (buf_parse r G). assert (Nat.eqb (length args) count = false) as -> by (apply Nat.eqb_neq; lia).
    assert (Nat.ltb (length args) count = true) as -> by (apply Nat.ltb_lt; lia).
    rewrite IH; [|discriminate|exact Fr|rewrite app_length; cbn [length]; lia]. rewrite <- app_assoc. reflexivity.
Qed.

(* joining: stays in the buffer *)
Lemma join_spec cap : forall rs acc, Forall res_good rs -> (length acc + N.to_nat 4301 * length rs < cap)%nat ->
  state_join cap false rs acc = TOk (acc ++ match rs with [] => [] | _ => SP :: states rs end).
Proof.
  induction rs as [|r rest IH]; intros acc F L; [rewrite app_nil_r; reflexivity|]. inversion F as [|? ? G Fr]; subst.
  destruct (res_form r G) as [E B]. assert (M44 : SANLK_MAX_RES_STR = N.to_nat 4400) by reflexivity.
  cbn [state_join]. rewrite E. destruct (Nat.ltb (SANLK_MAX_RES_STR - 1) _) eqn:X; [apply Nat.ltb_lt in X; lia|].
  cbn [length] in L. unfold strcat at 1. cbn [length]. destruct (Nat.ltb (length acc + 1) cap) eqn:X1; [|apply Nat.ltb_ge in X1; lia].
  unfold strcat. rewrite app_length. cbn [length].
  replace (Nat.ltb (length acc + 1 + length (form (sr_space r) (sr_name r) r)) cap) with true by (symmetry; apply Nat.ltb_lt; lia).
  rewrite IH; [|exact Fr|rewrite !app_length; cbn [length]; lia]. destruct rest as [|x rest]; rewrite <- !app_assoc; cbn [app]; [rewrite app_nil_r; reflexivity|].
  rewrite states_cons. reflexivity.
Qed.

Lemma args_states rs : rs <> [] -> Forall res_good rs -> args_to_state rs = TOk (states rs).
Proof.
  intros NE F. destruct rs as [|r rest]; [contradiction|]. inversion F as [|? ? G Fr]; subst.
  destruct (res_form r G) as [E B]. assert (M44 : SANLK_MAX_RES_STR = N.to_nat 4400) by reflexivity.
  unfold args_to_state. assert (CL : (N.to_nat 4301 * length (r :: rest) + 1 <= length (r :: rest) * (SANLK_MAX_RES_STR + 1))%nat) by (cbn [length]; nia).
  revert CL. generalize (length (r :: rest) * (SANLK_MAX_RES_STR + 1))%nat as cap. intros cap CL. cbn [length] in CL. cbn [state_join]. rewrite E. destruct (Nat.ltb (SANLK_MAX_RES_STR - 1) _) eqn:X; [apply Nat.ltb_lt in X; lia|].
  unfold strcat. cbn [length Nat.add app].
  replace (Nat.ltb (length (form (sr_space r) (sr_name r) r)) cap) with true by (symmetry; apply Nat.ltb_lt; lia).
  rewrite join_spec; [|exact Fr|lia]. destruct rest; [rewrite app_nil_r|rewrite states_cons]; reflexivity.
Qed.

Theorem C61_round_trip_partial : forall rs, rs <> [] -> Forall resource rs -> Forall ordinary rs ->
  exists s rs', args_to_state rs = TOk s /\ state_to_args s = AOk rs' /\ Forall2 same rs rs'.
Proof.
  intros rs NE R O. assert (F : Forall res_good rs).
  { clear NE. induction R; [constructor|]. inversion O; subst. constructor; auto. apply good_of; auto. }
  exists (states rs), (map res_kept rs). split; [apply args_states; auto|]. split.
  - unfold state_to_args. rewrite loop_states; auto. cbn [length]. pose proof (count_states rs F). lia.
  - clear. induction rs; cbn [map]; constructor; auto. apply kept_same.
Qed.

(* the buffer of args_to_state is never exceeded, whatever the resources *)
Lemma join_safe cap : forall rs acc first, (length acc + (SANLK_MAX_RES_STR + 1) * length rs <= cap)%nat -> (first = true -> acc = []) ->
  (rs <> [] \/ True) -> state_join cap first rs acc <> TBad.
Proof.
  induction rs as [|r rest IH]; intros acc first L FA _; [discriminate|]. assert (M44 : SANLK_MAX_RES_STR = N.to_nat 4400) by reflexivity.
  cbn [state_join length] in *. destruct (res_to_str r) as [str|]; [|discriminate].
  destruct (Nat.ltb_spec (SANLK_MAX_RES_STR - 1) (length str)) as [X|X]; [discriminate|].
  assert (Q : exists a1, (if first then Some acc else strcat cap acc [SP]) = Some a1 /\ (length a1 <= length acc + 1)%nat).
  { destruct first; [exists acc; split; auto; lia|]. unfold strcat. cbn [length].
    destruct (Nat.ltb_spec (length acc + 1) cap) as [Y|Y]; [|lia]. eexists. split; [reflexivity|]. rewrite app_length. cbn. lia. }
  destruct Q as (a1 & -> & Q). unfold strcat. destruct (Nat.ltb_spec (length a1 + length str) cap) as [Y|Y]; [|lia].
  apply IH; [rewrite app_length; lia|discriminate|auto].
Qed.

Theorem C61_state_fits : forall rs, args_to_state rs <> TBad.
Proof. intros rs. unfold args_to_state. apply join_safe; [cbn [length]; lia|reflexivity|auto]. Qed.

(* ---- the full statement fails: a colon in the name ---- *)
Theorem C61_refuted : ~ C61_statement.
Proof.
  intros H. destruct (H [mkSres [76] [97; 58; 98] 0 4 [mkSdisk [47; 100] 0]]) as (s & rs' & S1 & S2 & _); [discriminate| |].
  - constructor; [|constructor]. unfold resource; cbn. repeat split; try lia; try (intros ?; intuition lia).
    all: match goal with H : _ = ?d \/ False |- _ => destruct H as [<-|[]]; cbn; try lia end. all: try (intros ?; intuition lia).
  - vm_compute in S1. injection S1 as <-. vm_compute in S2. discriminate S2.
Qed.

(* two resources, a name with a space, a path with a space and a colon *)
Example C61_nonvacuous :
  exists rs s, length rs = 2%nat /\ Forall resource rs /\ Forall ordinary rs /\ args_to_state rs = TOk s /\ state_to_args s = AOk rs.
Proof.
  exists [mkSres [76; 32; 49] [114] 7 1 [mkSdisk [47; 100; 58; 97; 32; 98] 1048576; mkSdisk [47; 101] 0]; mkSres [76] [115] 0 4 [mkSdisk [47] 3]].
  (* L 1:r:/d\:a\ b:1048576:/e:0:7 L:s:/:3:SH *)
  exists [76; 32; 49; 58; 114; 58; 47; 100; 92; 58; 97; 92; 32; 98; 58; 49; 48; 52; 56; 53; 55; 54; 58; 47; 101; 58; 48; 58; 55; 32; 76; 58; 115; 58; 47; 58; 51; 58; 83; 72].
  split; [reflexivity|]. split; [|split; [|split; vm_compute; reflexivity]].
  - repeat (apply Forall_cons || apply Forall_nil); unfold resource; cbn; repeat split; try lia; try (intros ?; intuition lia).
    all: repeat match goal with H : _ \/ _ |- _ => destruct H as [<-|H]; cbn; try lia | H : False |- _ => destruct H end. all: try (intros ?; intuition lia).
  - repeat (apply Forall_cons || apply Forall_nil); unfold ordinary; cbn; repeat split; try (intros ?; intuition lia).
    all: repeat match goal with H : _ \/ _ |- _ => destruct H as [<-|H]; cbn; try lia | H : False |- _ => destruct H end. all: try (intros ?; intuition lia).
Qed.

Print Assumptions C61_refuted.
Print Assumptions C61_round_trip_partial.
Print Assumptions C61_state_fits.
