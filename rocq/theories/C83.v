(* C83: `sanlock direct write_leader` changes the values given in the file and nothing
   else, leaves a record that is accepted, and writes nothing if the record cannot be
   read; writing back what read_leader printed changes nothing. *)
From Coq Require Import Ascii String List NArith ZArith Lia Bool Arith ZifyBool ZifyN ZifyNat.
From Verif Require Import Bytes Crc Codec Leader Sizes Strings StringsRound StatusOut ConfFile DirectDump WriteLeader C19.
Import ListNotations.
Open Scope N_scope.

(* ---- specification: the values a file gives ---- *)
Inductive nkey := NMagic | NVersion | NFlags | NSector | NNum | NMax | NOwner | NGen | NLver | NTime | NIo | NW1 | NW2 | NW3.
Scheme Equality for nkey.
Definition field (k : nkey) (r : leader) : N :=
  match k with
  | NMagic => l_magic r | NVersion => l_version r | NFlags => l_flags r | NSector => l_sector_size r
  | NNum => l_num_hosts r | NMax => l_max_hosts r | NOwner => l_owner_id r | NGen => l_owner_generation r
  | NLver => l_lver r | NTime => l_timestamp r | NIo => l_io_timeout r
  | NW1 => l_write_id r | NW2 => l_write_generation r | NW3 => l_write_timestamp r
  end.
Definition bits (k : nkey) : N :=
  match k with NMagic | NVersion | NFlags | NSector => 32 | NIo => 16 | _ => 64 end.
Definition hexkey (k : nkey) : bool := match k with NMagic | NVersion | NFlags => true | _ => false end.
Definition keyname (is_ls : bool) (k : nkey) : string :=
  match k with
  | NMagic => "magic" | NVersion => "version" | NFlags => "flags" | NSector => "sector_size"
  | NNum => "num_hosts" | NMax => "max_hosts" | NOwner => "owner_id" | NGen => "owner_generation"
  | NLver => "lver" | NTime => "timestamp" | NIo => "io_timeout"
  | NW1 => if is_ls then "extra1" else "write_id"
  | NW2 => if is_ls then "extra2" else "write_generation"
  | NW3 => if is_ls then "extra3" else "write_timestamp"
  end.
Inductive setting := Num (k : nkey) (v : N) | Space (s : bytes) | Res (s : bytes) | Sum (v : N).
(* the line for a setting *)
Definition text (is_ls : bool) (x : setting) : bytes :=
  match x with
  | Num k v => txt (keyname is_ls k) ++ [32] ++ (if hexkey k then txt "0x" ++ print_x v else print_llu v) ++ [10]
  | Space s => txt "space_name" ++ [32] ++ s ++ [10]
  | Res s => txt "resource_name" ++ [32] ++ s ++ [10]
  | Sum v => txt "checksum" ++ [32] ++ txt "0x" ++ print_x v ++ [10]
  end.
(* a name of at most 48 characters, none of them white space *)
Definition wordlike (s : bytes) : Prop := (length s <= 48)%nat /\ Forall (fun c => c < 256 /\ c <> 0 /\ is_space c = false) s.
Definition good (x : setting) : Prop :=
  match x with
  | Num k v => v < 2 ^ bits k
  | Space s | Res s => wordlike s /\ s <> []
  | Sum v => v < 2 ^ 32
  end.
Definition pad48 (s : bytes) : bytes := s ++ zeros (48 - length s).
(* the value in force after the settings in order *)
Fixpoint last_num (k : nkey) (l : list setting) (d : N) : N :=
  match l with
  | [] => d
  | Num j v :: r => last_num k r (if nkey_beq j k then v else d)
  | _ :: r => last_num k r d
  end.
Fixpoint last_space (l : list setting) (d : bytes) : bytes :=
  match l with [] => d | Space s :: r => last_space r (pad48 s) | _ :: r => last_space r d end.
Fixpoint last_res (l : list setting) (d : bytes) : bytes :=
  match l with [] => d | Res s :: r => last_res r (pad48 s) | _ :: r => last_res r d end.
Fixpoint last_sum (l : list setting) (d : N) : N :=
  match l with [] => d | Sum v :: r => last_sum r v | _ :: r => last_sum r d end.
(* record [new] is [old] with the settings made *)
Definition changed (l : list setting) (old new : leader) : Prop :=
  (forall k, field k new = last_num k l (field k old)) /\
  l_space_name new = last_space l (l_space_name old) /\ l_resource_name new = last_res l (l_resource_name old) /\
  l_unused1 new = l_unused1 old /\ l_unused2 new = l_unused2 old.

(* where the record is, and what is there *)
Definition stored (dv : device) (off : N) : bytes := fget (dv_byte dv) off LEADER_SIZE.
Definition bytes_dev (dv : device) : Prop := forall i, dv_byte dv i < 256.

(* Full claim. *)
Definition C83_statement : Prop :=
  forall dv tg force l stack se,
    bytes_dev dv -> Forall good l -> length se = LEADER_SIZE -> leader_wf stack ->
    let file := flat_map (text (tg_ls tg)) l in
    let '(old, ok) := read_leader_ret dv tg zero_leader stack in
    let '(dv', done) := write_leader dv tg force (Some file) stack se in
    (ok = false -> dv' = dv) /\
    (done = true ->
      let off := tg_off tg + (if tg_ls tg then (tg_host tg - 1) * l_sector_size old else 0) in
      let e := stored dv' off in
      changed l old (leader_record_in e) /\
      l_checksum (leader_record_in e) = (if force then last_sum l 0 else leader_checksum e) /\
      (forall i, i < off \/ off + l_sector_size old <= i -> dv_byte dv' i = dv_byte dv i)).

(* ---- numbers ---- *)
Lemma hex_digit v : v < 16 -> digit_of 16 (hexdig v) = Some v /\ is_space (hexdig v) = false /\ hexdig v <> 0 /\
  (hexdig v <> 45 /\ hexdig v <> 43) /\ hexdig v <> 120 /\ hexdig v <> 88 /\ hexdig v < 256.
Proof.
  intros V. unfold hexdig, digit_of, is_space. destruct (v <? 10) eqn:E.
  - replace ((48 <=? 48 + v) && (48 + v <=? 57)) with true by lia. replace (48 + v - 48) with v by lia.
    replace (v <? 16) with true by lia. split; [reflexivity|]. split; [lia|lia].
  - replace ((48 <=? 87 + v) && (87 + v <=? 57)) with false by lia. replace ((97 <=? 87 + v) && (87 + v <=? 102)) with true by lia.
    replace (87 + v - 87) with v by lia. replace (v <? 16) with true by lia. split; [reflexivity|]. split; [lia|lia].
Qed.
Definition hexch (c : N) : Prop := exists v, v < 16 /\ c = hexdig v.
Lemma hex_digits : forall f n acc, n < 16 ^ N.of_nat f -> (1 <= f)%nat ->
  digits 16 (hex_aux f n acc) 0 = digits 16 acc n /\
  (forall c, In c (hex_aux f n acc) -> In c acc \/ hexch c) /\
  (length acc < length (hex_aux f n acc) <= length acc + f)%nat /\
  (exists c r, hex_aux f n acc = c :: r /\ hexch c).
Proof.
  induction f as [|f IH]; intros n acc L F; [lia|].
  assert (M : n mod 16 < 16) by (apply N.mod_upper_bound; lia).
  assert (DM : n = 16 * (n / 16) + n mod 16) by (apply N.div_mod; lia).
  assert (HC : hexch (hexdig (n mod 16))) by (exists (n mod 16); auto).
  cbn [hex_aux]. cbn zeta. destruct (n / 16 =? 0) eqn:E.
  - apply N.eqb_eq in E. split.
    { cbn [digits]. rewrite (proj1 (hex_digit _ M)). f_equal. lia. }
    split. { intros c [<-|I]; [right; exact HC|left; exact I]. }
    split; [cbn [length]; lia|]. exists (hexdig (n mod 16)), acc. auto.
  - apply N.eqb_neq in E. assert (F1 : (1 <= f)%nat). { destruct f; [|lia]. cbn in L. lia. }
    assert (Lq : n / 16 < 16 ^ N.of_nat f).
    { apply N.div_lt_upper_bound; [lia|]. replace (N.of_nat (S f)) with (N.succ (N.of_nat f)) in L by lia.
      rewrite N.pow_succ_r' in L. lia. }
    destruct (IH (n / 16) (hexdig (n mod 16) :: acc) Lq F1) as (A & B & Ln & H).
    split. { rewrite A. cbn [digits]. rewrite (proj1 (hex_digit _ M)). f_equal. lia. }
    split. { intros c I. destruct (B c I) as [[<-|I']|R]; [right; exact HC|left; exact I'|right; exact R]. }
    split; [cbn [length] in Ln; lia|exact H].
Qed.
Lemma print_x_spec n : n < 2 ^ 32 ->
  digits 16 (print_x n) 0 = n /\ Forall hexch (print_x n) /\ (1 <= length (print_x n) <= 16)%nat.
Proof.
  intros L. unfold print_x.
  destruct (hex_digits 16 n [] ltac:(change (16 ^ N.of_nat 16) with 18446744073709551616; change (2 ^ 32) with 4294967296 in L; lia) ltac:(lia)) as (A & B & Ln & _).
  split; [rewrite A; reflexivity|]. split; [apply Forall_forall; intros c I; destruct (B c I) as [[]|R]; exact R|].
  cbn [length] in Ln. lia.
Qed.
Lemma scan_print_x n : n < 2 ^ 32 -> scan_0x (txt "0x" ++ print_x n) = Some n.
Proof.
  intros L. destruct (print_x_spec n L) as (A & B & C).
  change (txt "0x" ++ print_x n) with (48 :: 120 :: print_x n). cbn [scan_0x]. change ((48 =? 48) && (120 =? 120)) with true. cbv iota.
  assert (L64 : n < 2 ^ 64) by (change (2 ^ 32) with 4294967296 in L; change (2 ^ 64) with 18446744073709551616; lia).
  destruct (print_x n) as [|c r] eqn:P; [cbn in C; lia|].
  pose proof (Forall_inv B) as (v & V & Ec). pose proof (Forall_inv_tail B) as B'. subst c. destruct (hex_digit v V) as (D1 & D2 & D3 & (D4 & D5) & _).
  unfold scan_x. cbn [skip_space]. rewrite D2. cbn [split_sign]. apply N.eqb_neq in D4, D5. rewrite D4, D5.
  assert (SD : some_digit 16 (hexdig v :: r) = true) by (cbn [some_digit]; rewrite D1; reflexivity).
  rewrite SD. rewrite A. rewrite clamp_id by exact L64.
  destruct r as [|x r]; [reflexivity|].
  pose proof (Forall_inv B') as (w & W & Ex). subst x. destruct (hex_digit w W) as (_ & _ & _ & _ & E1 & E2 & _).
  apply N.eqb_neq in E1, E2. rewrite E1, E2. cbn [orb]. rewrite andb_false_r. reflexivity.
Qed.

(* ---- lines ---- *)
Definition wordch (c : N) : Prop := c <> 0 /\ is_space c = false.
Lemma wordch_10 c : wordch c -> c <> 10.
Proof. intros [_ H] ->. discriminate H. Qed.
Lemma dec_word n : n < 2 ^ 64 -> Forall wordch (print_llu n) /\ (1 <= length (print_llu n) <= 20)%nat.
Proof.
  intros L. destruct (print_llu_spec n L) as (_ & B & _ & C). split; [|exact C].
  apply Forall_forall. intros c I. specialize (B c I). unfold wordch, is_space. lia.
Qed.
Lemma hex_word n : n < 2 ^ 32 -> Forall wordch (txt "0x" ++ print_x n) /\ (1 <= length (txt "0x" ++ print_x n) <= 18)%nat.
Proof.
  intros L. destruct (print_x_spec n L) as (_ & B & C). change (txt "0x" ++ print_x n) with (48 :: 120 :: print_x n). split.
  - apply Forall_cons; [split; [discriminate|reflexivity]|]. apply Forall_cons; [split; [discriminate|reflexivity]|].
    apply Forall_forall. intros c I. rewrite Forall_forall in B. destruct (B c I) as (v & V & ->).
    destruct (hex_digit v V) as (_ & D2 & D3 & _). split; assumption.
  - cbn [length]. lia.
Qed.
Lemma take_word s t : Forall wordch s -> take_while not_space (s ++ 32 :: t) = s /\ drop_while not_space (s ++ 32 :: t) = 32 :: t.
Proof.
  induction 1 as [|c r [_ H] F IH]; [split; reflexivity|].
  destruct IH as [A B]. cbn [app take_while drop_while]. unfold not_space at 1 3. rewrite H. cbn [negb]. rewrite A, B. split; reflexivity.
Qed.
Lemma take_word_nl s : Forall wordch s -> take_while not_space (s ++ [10]) = s.
Proof. induction 1 as [|c r [_ H] F IH]; [reflexivity|]. cbn [app take_while]. unfold not_space at 1. rewrite H. cbn [negb]. rewrite IH. reflexivity. Qed.
Lemma skip_word s t : Forall wordch s -> s <> [] -> skip_space (s ++ t) = s ++ t.
Proof. destruct 1 as [|c r [_ H] F]; [congruence|]. intros _. cbn. rewrite H. reflexivity. Qed.
Lemma nul_free s : Forall (fun c => c <> 0) s -> upto_nul s = s.
Proof. induction 1 as [|c r H F IH]; [reflexivity|]. cbn. apply N.eqb_neq in H. rewrite H, IH. reflexivity. Qed.
Lemma words_nz f v : Forall wordch f -> Forall wordch v -> Forall (fun c => c <> 0) (f ++ [32] ++ v ++ [10]).
Proof.
  intros F V. apply Forall_app. split; [eapply Forall_impl; [|exact F]; intros c [H _]; exact H|].
  apply Forall_cons; [discriminate|]. apply Forall_app. split; [eapply Forall_impl; [|exact V]; intros c [H _]; exact H|].
  apply Forall_cons; [discriminate|apply Forall_nil].
Qed.
Lemma two_words_line f v : Forall wordch f -> Forall wordch v -> f <> [] -> v <> [] ->
  two_words (f ++ [32] ++ v ++ [10]) = Some (f, v).
Proof.
  intros F V Nf Nv. unfold two_words. rewrite (nul_free _ (words_nz f v F V)).
  rewrite (skip_word f _ F Nf). cbn [app]. destruct (take_word f (v ++ [10]) F) as [A B]. rewrite A, B.
  cbn [skip_space]. change (is_space 32) with true. cbv iota. rewrite (skip_word v _ V Nv), (take_word_nl v V).
  destruct f as [|a f]; [congruence|]. destruct v as [|b v]; [congruence|]. reflexivity.
Qed.
Lemma two_words_empty f : Forall wordch f -> two_words (f ++ [32] ++ [] ++ [10]) = None.
Proof.
  intros F. unfold two_words. rewrite (nul_free _ (words_nz f [] F (Forall_nil _))).
  destruct f as [|a f]; [reflexivity|]. rewrite (skip_word _ _ F) by discriminate.
  cbn [app]. destruct (take_word (a :: f) [10] F) as [A B]. cbn [app] in A, B. rewrite A, B. reflexivity.
Qed.

(* a line of the file: at most 127 characters, one newline, at the end *)
Definition is_line (l : bytes) : Prop := exists t, l = t ++ [10] /\ Forall (fun c => c <> 10) t /\ (length t <= 126)%nat.
Lemma fgets_line t rest : Forall (fun c => c <> 10) t -> forall n, (length t < n)%nat -> fgets n (t ++ 10 :: rest) = (t ++ [10], rest).
Proof.
  induction 1 as [|c r H F IH]; intros n L; (destruct n as [|n]; [cbn in L; lia|]); cbn [app fgets]; [reflexivity|].
  apply N.eqb_neq in H. rewrite H. rewrite IH by (cbn in L; lia). reflexivity.
Qed.
Lemma loop_lines is_ls ls : Forall is_line ls -> forall fuel st, (length (concat ls) <= fuel)%nat ->
  file_loop fuel is_ls (concat ls) st = fold_left (fun s l => file_line is_ls l s) ls st.
Proof.
  induction 1 as [|l ls (t & -> & T & L) F IH]; intros fuel st Le.
  - destruct fuel; reflexivity.
  - cbn [concat fold_left] in *. rewrite app_length in Le. rewrite app_length in Le. cbn [length] in Le.
    destruct fuel as [|fuel]; [lia|].
    rewrite <- app_assoc. cbn [app]. destruct (t ++ 10 :: concat ls) as [|c0 r0] eqn:E; [destruct t; discriminate E|].
    cbn [file_loop]. rewrite <- E. rewrite (fgets_line t (concat ls) T) by (change (MAX_LINE - 1)%nat with 127%nat; lia).
    apply IH. lia.
Qed.
Lemma word_line f v : Forall wordch f -> Forall wordch v -> (length f + length v <= 125)%nat -> is_line (f ++ [32] ++ v ++ [10]).
Proof.
  intros F V L. exists (f ++ [32] ++ v). split; [rewrite <- !app_assoc; reflexivity|]. split.
  - apply Forall_app. split; [eapply Forall_impl; [|exact F]; intros c; apply wordch_10|].
    apply Forall_cons; [discriminate|]. eapply Forall_impl; [|exact V]. intros c. apply wordch_10.
  - rewrite !app_length. cbn [length]. lia.
Qed.

(* ---- settings ---- *)
Definition wkey (k : nkey) : fkey :=
  match k with
  | NMagic => KMagic | NVersion => KVersion | NFlags => KFlags | NSector => KSector | NNum => KNum | NMax => KMax
  | NOwner => KOwner | NGen => KGen | NLver => KLver | NTime => KTime | NIo => KIo | NW1 => KW1 | NW2 => KW2 | NW3 => KW3
  end.
Lemma key_found is_ls k : key_of is_ls (txt (keyname is_ls k)) = Some (wkey k).
Proof. destruct is_ls, k; reflexivity. Qed.
Lemma key_word is_ls k : Forall wordch (txt (keyname is_ls k)) /\ (1 <= length (txt (keyname is_ls k)) <= 20)%nat.
Proof.
  assert (B : forallb (fun c => negb (c =? 0) && negb (is_space c)) (txt (keyname is_ls k)) = true) by (destruct is_ls, k; reflexivity).
  split; [|destruct is_ls, k; cbn; lia].
  rewrite forallb_forall in B. apply Forall_forall. intros c I. specialize (B c I).
  apply andb_true_iff in B as [B1 B2]. apply negb_true_iff in B1, B2. apply N.eqb_neq in B1. split; assumption.
Qed.
Lemma bits_64 k v : v < 2 ^ bits k -> v < 2 ^ 64.
Proof. intros H. eapply N.lt_le_trans; [exact H|]. apply N.pow_le_mono_r; [discriminate|]. destruct k; discriminate. Qed.
Definition value (k : nkey) (v : N) : bytes := if hexkey k then txt "0x" ++ print_x v else print_llu v.
Lemma value_word k v : v < 2 ^ bits k -> Forall wordch (value k v) /\ (1 <= length (value k v) <= 20)%nat.
Proof.
  intros H. unfold value. destruct (hexkey k) eqn:E.
  - destruct (hex_word v) as [A B]; [destruct k; try discriminate E; exact H|]. split; [exact A|lia].
  - apply dec_word. exact (bits_64 k v H).
Qed.
Lemma wordlike_word s : wordlike s -> Forall wordch s.
Proof. intros [_ F]. eapply Forall_impl; [|exact F]. intros c (_ & A & B). split; assumption. Qed.
Lemma strncpy_word s : wordlike s -> strncpy48 s = pad48 s.
Proof.
  intros W. unfold strncpy48, pad48, zeros. rewrite nul_free by (eapply Forall_impl; [|exact (wordlike_word s W)]; intros c [H _]; exact H).
  destruct W as [L _]. rewrite firstn_app, firstn_all2 by exact L. f_equal.
  assert (G : forall n m, (m <= n)%nat -> firstn m (repeat 0 n) = repeat 0 m).
  { intros n m. revert n. induction m; intros n Hn; [reflexivity|]. destruct n; [lia|]. cbn. f_equal. apply IHm. lia. }
  apply G. lia.
Qed.

(* one setting, in terms of the specification *)
Lemma setting_line is_ls x st : good x ->
  is_line (text is_ls x) /\
  let s' := file_line is_ls (text is_ls x) st in
  (forall k, field k (f_lr s') = match x with Num j v => if nkey_beq j k then v else field k (f_lr st) | _ => field k (f_lr st) end) /\
  l_space_name (f_lr s') = match x with Space s => pad48 s | _ => l_space_name (f_lr st) end /\
  l_resource_name (f_lr s') = match x with Res s => pad48 s | _ => l_resource_name (f_lr st) end /\
  l_unused1 (f_lr s') = l_unused1 (f_lr st) /\ l_unused2 (f_lr s') = l_unused2 (f_lr st) /\
  f_sum s' = match x with Sum v => v | _ => f_sum st end.
Proof.
  intros G. destruct x as [k v|s|s|v]; cbn [text] in *.
  - cbn [good] in G. destruct (key_word is_ls k) as [K1 K2]. destruct (value_word k v G) as [V1 V2]. fold (value k v).
    split; [apply word_line; auto; lia|]. unfold file_line.
    rewrite two_words_line by (auto; intros E; rewrite E in *; cbn in *; lia).
    rewrite key_found.
    assert (ST : forall old, store (bits k) old (Some v) = v) by (intros old; cbn; apply N.mod_small; exact G).
    pose proof (bits_64 k v G) as G64. unfold value.
    destruct k; cbn [hexkey wkey set_field bits] in *;
      rewrite ?(scan_print_x v G), ?(sscanf_print v G64), ?ST;
      (split; [intros j; destruct j; reflexivity|]); repeat split; reflexivity.
  - destruct G as [W Ne]. split; [apply word_line; [apply Forall_forall; intros c I; cbn in I|apply wordlike_word; exact W|destruct W; cbn; lia]|].
    { unfold wordch, is_space. repeat (destruct I as [<-|I]; [split; [discriminate|reflexivity]|]). destruct I. }
    unfold file_line. rewrite two_words_line; [|apply Forall_forall; intros c I; cbn in I; unfold wordch; repeat (destruct I as [<-|I]; [split; [discriminate|reflexivity]|]); destruct I|apply wordlike_word; exact W|discriminate|exact Ne].
    replace (key_of is_ls (txt "space_name")) with (Some KSpace) by (destruct is_ls; reflexivity).
    cbn [set_field f_lr l_space_name l_resource_name l_unused1 l_unused2 f_sum].
    split; [intros j; destruct j; reflexivity|]. rewrite (strncpy_word s W). repeat split; reflexivity.
  - destruct G as [W Ne]. split; [apply word_line; [apply Forall_forall; intros c I; cbn in I|apply wordlike_word; exact W|destruct W; cbn; lia]|].
    { unfold wordch, is_space. repeat (destruct I as [<-|I]; [split; [discriminate|reflexivity]|]). destruct I. }
    unfold file_line. rewrite two_words_line; [|apply Forall_forall; intros c I; cbn in I; unfold wordch; repeat (destruct I as [<-|I]; [split; [discriminate|reflexivity]|]); destruct I|apply wordlike_word; exact W|discriminate|exact Ne].
    replace (key_of is_ls (txt "resource_name")) with (Some KName) by (destruct is_ls; reflexivity).
    cbn [set_field f_lr l_space_name l_resource_name l_unused1 l_unused2 f_sum].
    split; [intros j; destruct j; reflexivity|]. rewrite (strncpy_word s W). repeat split; reflexivity.
  - cbn [good] in G. destruct (hex_word v G) as [V1 V2].
    assert (K1 : Forall wordch (txt "checksum")).
    { apply Forall_forall; intros c I; cbn in I; unfold wordch; repeat (destruct I as [<-|I]; [split; [discriminate|reflexivity]|]); destruct I. }
    change (txt "checksum" ++ [32] ++ txt "0x" ++ print_x v ++ [10]) with (txt "checksum" ++ [32] ++ (txt "0x" ++ print_x v) ++ [10]).
    split; [apply word_line; auto; change (length (txt "checksum")) with 8%nat; lia|]. unfold file_line.
    rewrite two_words_line by (auto; discriminate).
    replace (key_of is_ls (txt "checksum")) with (Some KSum) by (destruct is_ls; reflexivity).
    cbn [set_field]. rewrite (scan_print_x v G). cbn [store]. rewrite N.mod_small by exact G.
    split; [intros j; destruct j; reflexivity|]. repeat split; reflexivity.
Qed.

Lemma fold_settings is_ls l : Forall good l -> forall st,
  let s' := fold_left (fun s t => file_line is_ls t s) (map (text is_ls) l) st in
  changed l (f_lr st) (f_lr s') /\ f_sum s' = last_sum l (f_sum st).
Proof.
  induction 1 as [|x l G F IH]; intros st; [repeat split; reflexivity|]. cbn [map fold_left].
  destruct (setting_line is_ls x st G) as (_ & A1 & A2 & A3 & A4 & A5 & A6).
  destruct (IH (file_line is_ls (text is_ls x) st)) as [(B1 & B2 & B3 & B4 & B5) B6]. cbv zeta.
  split; [split; [|split; [|split; [|split]]]|].
  - intros k. rewrite B1, A1. destruct x; reflexivity.
  - rewrite B2, A2. destruct x; reflexivity.
  - rewrite B3, A3. destruct x; reflexivity.
  - congruence.
  - congruence.
  - rewrite B6, A6. destruct x; reflexivity.
Qed.
Lemma flat_map_concat is_ls l : flat_map (text is_ls) l = concat (map (text is_ls) l).
Proof. induction l; [reflexivity|]. cbn. rewrite IHl. reflexivity. Qed.
Lemma lines_good is_ls l : Forall good l -> Forall is_line (map (text is_ls) l).
Proof. induction 1 as [|x l G F IH]; [apply Forall_nil|]. cbn. apply Forall_cons; [|exact IH]. exact (proj1 (setting_line is_ls x (mkF zero_leader 0) G)). Qed.

Lemma out_sum c lr e : leader_record_out (set_sum c lr) e = leader_record_out lr e.
Proof. unfold leader_record_out. f_equal. Qed.
Lemma set_sum_field c lr k : field k (set_sum c lr) = field k lr.
Proof. destruct k; reflexivity. Qed.
(* The file gives the last value of every member it names, and changes no other. *)
Theorem C83_settings :
  forall is_ls force l lr, Forall good l ->
    let r := read_file_leader is_ls force (flat_map (text is_ls) l) lr in
    changed l lr r /\
    (force = true -> l_checksum r = last_sum l 0) /\
    (force = false -> l_checksum r = leader_checksum (leader_record_out r (zeros LEADER_SIZE))).
Proof.
  intros is_ls force l lr G. cbv zeta. unfold read_file_leader. rewrite flat_map_concat.
  rewrite (loop_lines is_ls _ (lines_good is_ls l G)) by reflexivity.
  destruct (fold_settings is_ls l G (mkF lr 0)) as [C S]. cbn [f_lr f_sum] in *.
  set (s' := fold_left (fun s t => file_line is_ls t s) (map (text is_ls) l) (mkF lr 0)) in *.
  cbv zeta. destruct C as (C1 & C2 & C3 & C4 & C5).
  clearbody s'. destruct force.
  all: split; [split; [intros k; rewrite set_sum_field; apply C1|]; cbn [set_sum l_space_name l_resource_name l_unused1 l_unused2]; repeat split; assumption|].
  - split; intros E; [exact S|discriminate E].
  - rewrite out_sum. cbn [set_sum l_checksum]. split; intros E; [discriminate E|reflexivity].
Qed.

(* ---- writing back what was printed ---- *)
Definition named (b : bytes) : Prop := exists s, wordlike s /\ b = pad48 s.
Lemma name48_pad s : wordlike s -> name48 (pad48 s) = s.
Proof.
  intros W. pose proof (wordlike_word s W) as F. destruct W as [L _]. unfold name48, pad48, zeros.
  assert (E : upto_nul (s ++ repeat 0 (48 - length s)) = s).
  { clear L. induction F as [|c r [H _] F IH].
    - destruct (48 - length [])%nat; reflexivity.
    - cbn [app upto_nul]. apply N.eqb_neq in H. rewrite H. f_equal.
      assert (G : forall n, upto_nul (r ++ repeat 0 n) = r).
      { clear IH H. induction F as [|d t [Hd _] F' IH']; intros n; [destruct n; reflexivity|].
        cbn [app upto_nul]. apply N.eqb_neq in Hd. rewrite Hd, IH'. reflexivity. }
      apply G. }
  rewrite E. apply firstn_all2. exact L.
Qed.
Definition all_settings (lr : leader) (sp na : bytes) : list setting :=
  [Num NMagic (l_magic lr); Num NVersion (l_version lr); Num NFlags (l_flags lr); Num NSector (l_sector_size lr);
   Num NNum (l_num_hosts lr); Num NMax (l_max_hosts lr); Num NOwner (l_owner_id lr); Num NGen (l_owner_generation lr);
   Num NLver (l_lver lr); Space sp; Res na; Num NTime (l_timestamp lr); Sum (l_checksum lr); Num NIo (l_io_timeout lr);
   Num NW1 (l_write_id lr); Num NW2 (l_write_generation lr); Num NW3 (l_write_timestamp lr)].
Lemma line_of_eq f v : line_of f v = txt f ++ [32] ++ v ++ [10].
Proof. reflexivity. Qed.
Lemma print_is_settings is_ls lr sp na :
  wordlike sp -> wordlike na -> l_space_name lr = pad48 sp -> l_resource_name lr = pad48 na ->
  print_leader is_ls lr = concat (map (text is_ls) (all_settings lr sp na)).
Proof.
  intros W1 W2 E1 E2. unfold print_leader. rewrite !line_of_eq. rewrite E1, E2, (name48_pad sp W1), (name48_pad na W2).
  cbn [all_settings map concat text hexkey keyname]. rewrite app_nil_r. destruct is_ls; rewrite <- !app_assoc; reflexivity.
Qed.
Lemma empty_name_line is_ls (b : bool) st :
  file_line is_ls (text is_ls (if b then Space [] else Res [])) st = st /\ is_line (text is_ls (if b then Space [] else Res [])).
Proof.
  split.
  - unfold file_line. destruct b; cbn [text].
    + rewrite (two_words_empty (txt "space_name")); [reflexivity|].
      apply Forall_forall; intros c I; cbn in I; unfold wordch; repeat (destruct I as [<-|I]; [split; [discriminate|reflexivity]|]); destruct I.
    + rewrite (two_words_empty (txt "resource_name")); [reflexivity|].
      apply Forall_forall; intros c I; cbn in I; unfold wordch; repeat (destruct I as [<-|I]; [split; [discriminate|reflexivity]|]); destruct I.
  - destruct b; cbn [text].
    + exists (txt "space_name" ++ [32]). split; [reflexivity|]. split; [|cbn; lia].
      apply Forall_forall; intros c I; cbn in I; repeat (destruct I as [<-|I]; [discriminate|]); destruct I.
    + exists (txt "resource_name" ++ [32]). split; [reflexivity|]. split; [|cbn; lia].
      apply Forall_forall; intros c I; cbn in I; repeat (destruct I as [<-|I]; [discriminate|]); destruct I.
Qed.
(* a setting of [lr] itself changes nothing in a record that already has the value *)
Definition of_leader (lr : leader) (x : setting) : Prop :=
  match x with
  | Num k v => v = field k lr
  | Space s => l_space_name lr = pad48 s
  | Res s => l_resource_name lr = pad48 s
  | Sum v => v = l_checksum lr
  end.
Definition almost (x : setting) : Prop :=
  match x with Space s | Res s => wordlike s | _ => good x end.
Lemma leader_ext a b : (forall k, field k a = field k b) -> l_space_name a = l_space_name b -> l_resource_name a = l_resource_name b ->
  l_unused1 a = l_unused1 b -> l_unused2 a = l_unused2 b -> l_checksum a = l_checksum b -> a = b.
Proof.
  intros H H1 H2 H3 H4 H5.
  pose proof (H NMagic); pose proof (H NVersion); pose proof (H NFlags); pose proof (H NSector); pose proof (H NNum);
  pose proof (H NMax); pose proof (H NOwner); pose proof (H NGen); pose proof (H NLver); pose proof (H NTime);
  pose proof (H NIo); pose proof (H NW1); pose proof (H NW2); pose proof (H NW3).
  clear H. destruct a, b. cbn in *. subst. reflexivity.
Qed.
Lemma set_checksum_same k v s : l_checksum (f_lr (set_field k v s)) = l_checksum (f_lr s).
Proof. destruct k; reflexivity. Qed.
Lemma file_line_checksum is_ls t s : l_checksum (f_lr (file_line is_ls t s)) = l_checksum (f_lr s).
Proof. unfold file_line. destruct (two_words t) as [[f v]|]; [|reflexivity]. destruct (key_of is_ls f); [apply set_checksum_same|reflexivity]. Qed.
Lemma same_setting is_ls lr x st : of_leader lr x -> almost x -> f_lr st = lr ->
  is_line (text is_ls x) /\ f_lr (file_line is_ls (text is_ls x) st) = lr /\
  f_sum (file_line is_ls (text is_ls x) st) = match x with Sum v => v | _ => f_sum st end.
Proof.
  intros O A E. assert (K : x = Space [] \/ x = Res [] \/ good x).
  { destruct x as [k v|s|s|v]; auto; cbn in A; destruct s; auto; right; right; (split; [exact A|discriminate]). }
  destruct K as [->|[->|G]].
  - destruct (empty_name_line is_ls true st) as [B C]. rewrite B. auto.
  - destruct (empty_name_line is_ls false st) as [B C]. rewrite B. auto.
  - destruct (setting_line is_ls x st G) as (L & A1 & A2 & A3 & A4 & A5 & A6). split; [exact L|]. split; [|exact A6].
    apply leader_ext.
    + intros k. rewrite A1, E. destruct x as [j v|s|s|v]; try reflexivity. cbn in O. destruct (nkey_beq j k) eqn:J; [|reflexivity].
      apply internal_nkey_dec_bl in J. congruence.
    + rewrite A2, E. destruct x; auto.
    + rewrite A3, E. destruct x; auto.
    + congruence.
    + congruence.
    + rewrite file_line_checksum, E. reflexivity.
Qed.
Lemma same_settings is_ls lr l : Forall (of_leader lr) l -> Forall almost l -> forall st, f_lr st = lr ->
  Forall is_line (map (text is_ls) l) /\
  f_lr (fold_left (fun s t => file_line is_ls t s) (map (text is_ls) l) st) = lr /\
  f_sum (fold_left (fun s t => file_line is_ls t s) (map (text is_ls) l) st) = last_sum l (f_sum st).
Proof.
  induction l as [|x l IH]; intros O A st E; [split; [apply Forall_nil|split; [exact E|reflexivity]]|].
  cbn [map fold_left].
  destruct (same_setting is_ls lr x st (Forall_inv O) (Forall_inv A) E) as (L & B & C).
  destruct (IH (Forall_inv_tail O) (Forall_inv_tail A) _ B) as (D1 & D2 & D3).
  split; [apply Forall_cons; assumption|]. split; [exact D2|]. rewrite D3, C. destruct x; reflexivity.
Qed.
(* Writing back what read_leader printed gives the same record, with its checksum when
   it is forced and with the right one when not. *)
Theorem C83_write_back :
  forall is_ls force lr, leader_wf lr -> named (l_space_name lr) -> named (l_resource_name lr) ->
    read_file_leader is_ls force (print_leader is_ls lr) lr =
    (if force then lr else set_sum (leader_checksum (leader_record_out lr (zeros LEADER_SIZE))) lr).
Proof.
  intros is_ls force lr W (sp & W1 & E1) (na & W2 & E2).
  unfold leader_wf in W. destruct W as (V1&V2&V3&V4&V5&V6&V7&V8&V9&_&_&V10&V11&V12&V13&V14&V15&V16&V17).
  rewrite (print_is_settings is_ls lr sp na W1 W2 E1 E2). unfold read_file_leader.
  destruct (same_settings is_ls lr (all_settings lr sp na)) with (st := mkF lr 0) as (L & A & B).
  - unfold all_settings. repeat apply Forall_cons; try apply Forall_nil; cbn; auto.
  - unfold all_settings. repeat apply Forall_cons; try apply Forall_nil; cbn; auto.
  - reflexivity.
  - rewrite (loop_lines is_ls _ L) by reflexivity. cbv zeta. rewrite A, B. cbn [all_settings last_sum].
    destruct force; [|reflexivity]. destruct lr. reflexivity.
Qed.

(* ---- the disk ---- *)
Lemma out_in lr e : leader_wf lr -> length e = LEADER_SIZE ->
  leader_record_in (leader_record_out lr e) = leader_set_checksum lr (le_dec (get 168 4 e)).
Proof.
  intros W He. pose proof (leader_shape_ok lr W) as Sh.
  unfold leader_record_out. set (ws := leader_record_writes lr).
  unfold leader_wf in W.
  destruct W as (W1&W2&W3&W4&W5&W6&W7&W8&W9&(Hs&_)&(Hr&_)&W10&W11&W12&W13&W14&W15&W16&W17).
  assert (G : forall k o n, chk LEADER_SIZE k leader_shape o n = true ->
              get o n (puts ws e) = snd (nth k ws (0%nat, []))).
  { intros k o n H. eapply get_puts_nth; eauto. }
  assert (K : get 168 4 (puts ws e) = get 168 4 e).
  { eapply get_puts_other; [exact He| |]; unfold ws; rewrite Sh; reflexivity. }
  unfold leader_record_in, leader_set_checksum.
  rewrite (G 0%nat 0%nat 4%nat eq_refl), (G 1%nat 4%nat 4%nat eq_refl),
    (G 2%nat 8%nat 4%nat eq_refl), (G 3%nat 12%nat 4%nat eq_refl),
    (G 4%nat 16%nat 8%nat eq_refl), (G 5%nat 24%nat 8%nat eq_refl),
    (G 6%nat 32%nat 8%nat eq_refl), (G 7%nat 40%nat 8%nat eq_refl),
    (G 8%nat 48%nat 8%nat eq_refl), (G 9%nat 56%nat 48%nat eq_refl),
    (G 10%nat 104%nat 48%nat eq_refl), (G 11%nat 152%nat 8%nat eq_refl),
    (G 12%nat 160%nat 8%nat eq_refl), (G 13%nat 172%nat 2%nat eq_refl),
    (G 14%nat 174%nat 2%nat eq_refl), (G 15%nat 176%nat 8%nat eq_refl),
    (G 16%nat 184%nat 8%nat eq_refl), (G 17%nat 192%nat 8%nat eq_refl), K.
  subst ws. cbn [leader_record_writes app nth snd].
  rewrite !dec16, !dec32, !dec64 by assumption. reflexivity.
Qed.
Lemma fget_len m o n : length (fget m o n) = n.
Proof. unfold fget. rewrite map_length, seq_length. reflexivity. Qed.
Lemma nth_fget m o n i : (i < n)%nat -> nth i (fget m o n) 0 = m (o + N.of_nat i).
Proof.
  intros L. unfold fget. rewrite (nth_indep _ 0 (m (o + N.of_nat 0))) by (rewrite map_length, seq_length; exact L).
  rewrite (map_nth (fun i => m (o + N.of_nat i))). rewrite seq_nth by exact L. reflexivity.
Qed.
Lemma dwrite_in dv off bs data : (length data <= length bs)%nat -> firstn (length data) bs = data ->
  fget (dv_byte (dwrite dv off bs)) off (length data) = data.
Proof.
  intros L F. apply (nth_ext _ _ 0 0); [apply fget_len|]. intros i Li. rewrite fget_len in Li. rewrite nth_fget by exact Li.
  cbn [dwrite dv_byte]. replace ((off <=? off + N.of_nat i) && (off + N.of_nat i <? off + N.of_nat (length bs))) with true by lia.
  replace (N.to_nat (off + N.of_nat i - off)) with i by lia.
  rewrite <- (firstn_skipn (length data) bs), F, app_nth1 by exact Li. reflexivity.
Qed.
Lemma dwrite_out dv off bs i : i < off \/ off + N.of_nat (length bs) <= i -> dv_byte (dwrite dv off bs) i = dv_byte dv i.
Proof. intros H. cbn [dwrite dv_byte]. replace ((off <=? i) && (i <? off + N.of_nat (length bs))) with false by lia. reflexivity. Qed.
Lemma sector_written dv base ss nr data : (ss = 512 \/ ss = 4096) -> length data = LEADER_SIZE ->
  let dv' := fst (write_sector dv base ss nr data) in
  snd (write_sector dv base ss nr data) = true /\
  stored dv' (base + nr * ss) = data /\
  (forall i, i < base + nr * ss \/ base + nr * ss + ss <= i -> dv_byte dv' i = dv_byte dv i) /\
  (forall i, base + nr * ss + 200 <= i < base + nr * ss + ss -> dv_byte dv' i = 0).
Proof.
  intros V L. unfold write_sector.
  assert (E : (ss =? 512) || (ss =? 4096) = true) by lia. rewrite E. cbn [fst snd]. split; [reflexivity|].
  assert (Ln : N.of_nat (length (data ++ zeros (N.to_nat ss - length data))) = ss).
  { rewrite app_length. unfold zeros. rewrite repeat_length, L. unfold LEADER_SIZE. lia. }
  split; [|split].
  - unfold stored. rewrite <- L at 1. apply dwrite_in; [rewrite app_length; lia|]. rewrite firstn_app, Nat.sub_diag, firstn_all, app_nil_r. reflexivity.
  - intros i H. apply dwrite_out. rewrite Ln. exact H.
  - intros i H. cbn [dwrite dv_byte]. rewrite Ln.
    replace ((base + nr * ss <=? i) && (i <? base + nr * ss + ss)) with true by lia.
    rewrite app_nth2 by (rewrite L; unfold LEADER_SIZE; lia). unfold zeros. apply nth_repeat.
Qed.

(* the record read *)
Lemma stack_or_disk dv tg before stack : bytes_dev dv -> leader_wf stack -> leader_wf before ->
  leader_wf (fst (read_leader_ret dv tg before stack)).
Proof.
  intros B Ws Wb. unfold read_leader_ret.
  assert (Z : leader_wf zero_leader).
  { apply leader_in_wf; [reflexivity|]. unfold all_bytes, zeros. apply Forall_forall. intros x I. apply repeat_spec in I. subst. reflexivity. }
  assert (R : forall o ss nr c m, read_sectors dv o ss nr c = Some m -> leader_wf (leader_record_in (fget m 0 LEADER_SIZE))).
  { intros o ss nr c m H. apply leader_in_wf; [apply fget_len|]. unfold read_sectors in H.
    destruct ((ss =? 512) || (ss =? 4096)); [|discriminate H]. unfold dread in H.
    destruct (_ && _) in H; [|discriminate H]. injection H as <-.
    unfold fget, all_bytes. apply Forall_forall. intros x I. apply in_map_iff in I as (j & <- & _). apply B. }
  destruct (tg_ls tg).
  - destruct (tg_host tg =? 0); [exact Wb|].
    cbv zeta. match goal with |- context [match ?X with SzErr => _ | SzNone => _ | SzSome _ _ => _ end] => destruct X end; [exact Z|exact Z|].
    destruct (read_sectors _ _ _ _ _) eqn:E; [exact (R _ _ _ _ _ E)|exact Z].
  - destruct (read_sectors _ _ _ _ _) eqn:E; [exact (R _ _ _ _ _ E)|exact Ws].
Qed.

(* what is found on disk after the command *)
Definition at_off (tg : target) (ss : N) : N := tg_off tg + (if tg_ls tg then (tg_host tg - 1) * ss else 0).
Definition last_sector (l : list setting) (old : leader) : N := last_num NSector l (l_sector_size old).
Definition valid_ss (ss : N) : Prop := ss = 512 \/ ss = 4096.
Lemma changed_sector l old new : changed l old new -> l_sector_size new = last_sector l old.
Proof. intros (H & _). exact (H NSector). Qed.
Lemma last_num_lt k l d : Forall good l -> d < 2 ^ bits k -> last_num k l d < 2 ^ bits k.
Proof.
  intros F. revert d. induction F as [|x l G F IH]; intros d D; [exact D|]. destruct x as [j v|s|s|v]; cbn [last_num]; try (apply IH; exact D).
  apply IH. destruct (nkey_beq j k) eqn:E; [|exact D]. apply internal_nkey_dec_bl in E. subst j. exact G.
Qed.
Lemma pad48_ok s : wordlike s -> length (pad48 s) = NAME_ID_SIZE /\ all_bytes (pad48 s).
Proof.
  intros [L F]. unfold pad48, zeros. split; [rewrite app_length, repeat_length; unfold NAME_ID_SIZE; lia|].
  unfold all_bytes. apply Forall_app. split; [eapply Forall_impl; [|exact F]; intros c (H & _); exact H|].
  apply Forall_forall. intros c I. apply repeat_spec in I. subst. reflexivity.
Qed.
Lemma last_space_ok l d : Forall good l -> length d = NAME_ID_SIZE /\ all_bytes d -> length (last_space l d) = NAME_ID_SIZE /\ all_bytes (last_space l d).
Proof.
  intros F. revert d. induction F as [|x l G F IH]; intros d D; [exact D|]. destruct x as [j v|s|s|v]; cbn [last_space]; try (apply IH; exact D).
  apply IH. apply pad48_ok. exact (proj1 G).
Qed.
Lemma last_res_ok l d : Forall good l -> length d = NAME_ID_SIZE /\ all_bytes d -> length (last_res l d) = NAME_ID_SIZE /\ all_bytes (last_res l d).
Proof.
  intros F. revert d. induction F as [|x l G F IH]; intros d D; [exact D|]. destruct x as [j v|s|s|v]; cbn [last_res]; try (apply IH; exact D).
  apply IH. apply pad48_ok. exact (proj1 G).
Qed.
Lemma last_sum_lt l d : Forall good l -> d < 2 ^ 32 -> last_sum l d < 2 ^ 32.
Proof. intros F. revert d. induction F as [|x l G F IH]; intros d D; [exact D|]. destruct x as [j v|s|s|v]; cbn [last_sum]; apply IH; auto. Qed.
Lemma changed_wf l old new : Forall good l -> leader_wf old -> changed l old new -> l_checksum new < 2 ^ 32 -> leader_wf new.
Proof.
  intros G W (C & C1 & C2 & C3 & C4) K. unfold leader_wf, u16, u32, u64 in *.
  destruct W as (W1&W2&W3&W4&W5&W6&W7&W8&W9&Wa&Wb&W10&W11&W12&W13&W14&W15&W16&W17).
  assert (B : forall k, field k old < 2 ^ bits k -> field k new < 2 ^ bits k) by (intros k H; rewrite C; apply last_num_lt; assumption).
  rewrite C1, C2, C3, C4.
  repeat match goal with
  | |- l_magic new < _ /\ _ => split; [exact (B NMagic W1)|]
  | |- l_version new < _ /\ _ => split; [exact (B NVersion W2)|]
  | |- l_flags new < _ /\ _ => split; [exact (B NFlags W3)|]
  | |- l_sector_size new < _ /\ _ => split; [exact (B NSector W4)|]
  | |- l_num_hosts new < _ /\ _ => split; [exact (B NNum W5)|]
  | |- l_max_hosts new < _ /\ _ => split; [exact (B NMax W6)|]
  | |- l_owner_id new < _ /\ _ => split; [exact (B NOwner W7)|]
  | |- l_owner_generation new < _ /\ _ => split; [exact (B NGen W8)|]
  | |- l_lver new < _ /\ _ => split; [exact (B NLver W9)|]
  end.
  split; [apply last_space_ok; assumption|]. split; [apply last_res_ok; assumption|].
  split; [exact (B NTime W10)|]. split; [exact W11|]. split; [exact K|]. split; [exact W13|].
  split; [exact (B NIo W14)|]. split; [exact (B NW1 W15)|]. split; [exact (B NW2 W16)|exact (B NW3 W17)].
Qed.
Lemma changed_set_checksum l old new c : changed l old new -> changed l old (leader_set_checksum new c).
Proof. intros (C & C'). split; [|exact C']. intros k. rewrite <- C. destruct k; reflexivity. Qed.

Lemma resource_written :
  forall dv tg force l old ok stack se,
    tg_ls tg = false -> bytes_dev dv -> Forall good l -> leader_wf stack -> length se = LEADER_SIZE ->
    read_leader_ret dv tg zero_leader stack = (old, ok) ->
    valid_ss (last_sector l old) ->
    let '(dv', done) := write_leader dv tg force (Some (flat_map (text (tg_ls tg)) l)) stack se in
    let e := stored dv' (tg_off tg) in
    done = true /\
    changed l old (leader_record_in e) /\
    l_checksum (leader_record_in e) = leader_checksum e /\
    (forall i, i < tg_off tg \/ tg_off tg + last_sector l old <= i -> dv_byte dv' i = dv_byte dv i) /\
    (forall i, tg_off tg + 200 <= i < tg_off tg + last_sector l old -> dv_byte dv' i = 0).
Proof.
  intros dv tg force l old ok stack se Ls B G Ws Le R V.
  unfold write_leader. rewrite R. unfold clobber. rewrite Ls.
  assert (Wz : leader_wf zero_leader).
  { apply leader_in_wf; [reflexivity|]. unfold all_bytes, zeros. apply Forall_forall. intros x I. apply repeat_spec in I. subst. reflexivity. }
  pose proof (stack_or_disk dv tg zero_leader stack B Ws Wz) as Wo. rewrite R in Wo. cbn [fst] in Wo.
  destruct (C83_settings false force l old G) as (C & K1 & K2).
  set (new := read_file_leader false force (flat_map (text false) l) old) in *. clearbody new. clear R.
  assert (Kn : l_checksum new < 2 ^ 32).
  { destruct force; [rewrite (K1 eq_refl); apply last_sum_lt; [exact G|reflexivity]|rewrite (K2 eq_refl); apply leader_checksum_bound]. }
  pose proof (changed_wf l old new G Wo C Kn) as Wn.
  rewrite (changed_sector l old new C).
  destruct (sector_written dv (tg_off tg) (last_sector l old) 0 (leader_bytes new se) V (leader_bytes_length new se Wn Le)) as (D1 & D2 & D3 & D4).
  destruct (write_sector dv (tg_off tg) (last_sector l old) 0 (leader_bytes new se)) as [dv' done]. cbn [fst snd] in *.
  rewrite N.mul_0_l, N.add_0_r in *. cbv zeta. rewrite D2, (leader_roundtrip_bytes new se Wn Le).
  split; [exact D1|]. split; [apply changed_set_checksum; exact C|]. split; [reflexivity|]. split; assumption.
Qed.
(* A resource whose record can be read: what is on disk then is the record with the values of the file, it is
   accepted whatever is asked of the checksum, the rest of its sector is cleared and all else is as before. *)
Theorem C83_resource_partial :
  forall dv tg force l old stack se,
    tg_ls tg = false -> bytes_dev dv -> Forall good l -> leader_wf stack -> length se = LEADER_SIZE ->
    read_leader_ret dv tg zero_leader stack = (old, true) ->
    valid_ss (last_sector l old) ->
    let '(dv', done) := write_leader dv tg force (Some (flat_map (text (tg_ls tg)) l)) stack se in
    let e := stored dv' (tg_off tg) in
    done = true /\
    changed l old (leader_record_in e) /\
    l_checksum (leader_record_in e) = leader_checksum e /\
    (forall i, i < tg_off tg \/ tg_off tg + last_sector l old <= i -> dv_byte dv' i = dv_byte dv i) /\
    (forall i, tg_off tg + 200 <= i < tg_off tg + last_sector l old -> dv_byte dv' i = 0).
Proof.
  intros dv tg force l old stack se Ls B G Ws Le R V. exact (resource_written dv tg force l old true stack se Ls B G Ws Le R V).
Qed.

Lemma lockspace_written :
  forall dv tg force l old ok stack se,
    tg_ls tg = true -> tg_host tg <> 0 -> bytes_dev dv -> Forall good l -> leader_wf stack -> length se = LEADER_SIZE ->
    read_leader_ret dv tg zero_leader stack = (old, ok) ->
    valid_ss (last_sector l old) ->
    let '(dv', done) := write_leader dv tg force (Some (flat_map (text (tg_ls tg)) l)) stack se in
    let off := at_off tg (last_sector l old) in
    let e := stored dv' off in
    done = true /\
    changed l old (leader_record_in e) /\
    l_checksum (leader_record_in e) = le_dec (get 168 4 se) /\
    (forall i, i < off \/ off + last_sector l old <= i -> dv_byte dv' i = dv_byte dv i) /\
    (forall i, off + 200 <= i < off + last_sector l old -> dv_byte dv' i = 0).
Proof.
  intros dv tg force l old ok stack se Ls Hn B G Ws Le R V.
  assert (H0 : (tg_host tg =? 0) = false) by lia.
  unfold write_leader. rewrite R. unfold clobber, at_off. rewrite Ls, H0.
  assert (Wz : leader_wf zero_leader).
  { apply leader_in_wf; [reflexivity|]. unfold all_bytes, zeros. apply Forall_forall. intros x I. apply repeat_spec in I. subst. reflexivity. }
  pose proof (stack_or_disk dv tg zero_leader stack B Ws Wz) as Wo. rewrite R in Wo. cbn [fst] in Wo.
  destruct (C83_settings true force l old G) as (C & K1 & K2).
  set (new := read_file_leader true force (flat_map (text true) l) old) in *. clearbody new. clear R.
  assert (Kn : l_checksum new < 2 ^ 32).
  { destruct force; [rewrite (K1 eq_refl); apply last_sum_lt; [exact G|reflexivity]|rewrite (K2 eq_refl); apply leader_checksum_bound]. }
  pose proof (changed_wf l old new G Wo C Kn) as Wn.
  rewrite (changed_sector l old new C).
  destruct (sector_written dv (tg_off tg) (last_sector l old) (tg_host tg - 1) (leader_record_out new se) V (leader_record_out_length new se Wn Le)) as (D1 & D2 & D3 & D4).
  destruct (write_sector dv (tg_off tg) (last_sector l old) (tg_host tg - 1) (leader_record_out new se)) as [dv' done]. cbn [fst snd] in *.
  cbv zeta. rewrite D2, (out_in new se Wn Le).
  split; [exact D1|]. split; [apply changed_set_checksum; exact C|]. split; [reflexivity|]. split; assumption.
Qed.
(* A lockspace: the values are there, but the checksum is whatever the buffer on the
   stack held, forced or not; and the record goes where the sector size of the file puts it. *)
Theorem C83_lockspace_partial :
  forall dv tg force l old stack se,
    tg_ls tg = true -> bytes_dev dv -> Forall good l -> leader_wf stack -> length se = LEADER_SIZE ->
    read_leader_ret dv tg zero_leader stack = (old, true) ->
    valid_ss (last_sector l old) ->
    let '(dv', done) := write_leader dv tg force (Some (flat_map (text (tg_ls tg)) l)) stack se in
    let off := at_off tg (last_sector l old) in
    let e := stored dv' off in
    done = true /\
    changed l old (leader_record_in e) /\
    l_checksum (leader_record_in e) = le_dec (get 168 4 se) /\
    (forall i, i < off \/ off + last_sector l old <= i -> dv_byte dv' i = dv_byte dv i) /\
    (forall i, off + 200 <= i < off + last_sector l old -> dv_byte dv' i = 0).
Proof.
  intros dv tg force l old stack se Ls B G Ws Le R V.
  assert (H0 : tg_host tg <> 0).
  { intros E. unfold read_leader_ret in R. rewrite Ls, E in R. discriminate R. }
  exact (lockspace_written dv tg force l old true stack se Ls H0 B G Ws Le R V).
Qed.

(* Nothing is written without a host id, without the file, or with another sector size. *)
Theorem C83_nothing_written :
  forall dv tg force file stack se,
    (file = None \/ (tg_ls tg = true /\ tg_host tg = 0) \/
     (exists l old ok, file = Some (flat_map (text (tg_ls tg)) l) /\ Forall good l /\
        read_leader_ret dv tg zero_leader stack = (old, ok) /\ ~ valid_ss (last_sector l old))) ->
    write_leader dv tg force file stack se = (dv, false).
Proof.
  intros dv tg force file stack se [->|[[L H]|(l & old & ok & -> & G & R & V)]]; unfold write_leader.
  - destruct (read_leader_ret dv tg zero_leader stack). reflexivity.
  - destruct (read_leader_ret dv tg zero_leader stack). destruct file; [|reflexivity]. unfold clobber. rewrite L, H. reflexivity.
  - rewrite R. destruct (C83_settings (tg_ls tg) force l old G) as (C & _).
    unfold clobber. rewrite (changed_sector _ _ _ C). unfold write_sector, valid_ss in *.
    replace ((last_sector l old =? 512) || (last_sector l old =? 4096)) with false by lia.
    destruct (tg_ls tg); [destruct (tg_host tg =? 0)|]; reflexivity.
Qed.

(* ---- where it fails ---- *)
(* A record that cannot be read is written all the same: what is in memory takes its place. *)
Theorem C83_unread :
  forall dv tg force l old stack se,
    bytes_dev dv -> Forall good l -> leader_wf stack -> length se = LEADER_SIZE ->
    (tg_ls tg = true -> tg_host tg <> 0) ->
    read_leader_ret dv tg zero_leader stack = (old, false) ->
    valid_ss (last_sector l (if tg_ls tg then zero_leader else stack)) ->
    let '(dv', done) := write_leader dv tg force (Some (flat_map (text (tg_ls tg)) l)) stack se in
    done = true /\
    changed l (if tg_ls tg then zero_leader else stack)
      (leader_record_in (stored dv' (at_off tg (last_sector l (if tg_ls tg then zero_leader else stack))))).
Proof.
  intros dv tg force l old stack se B G Ws Le H R V.
  assert (O : old = (if tg_ls tg then zero_leader else stack)).
  { revert R. unfold read_leader_ret. destruct (tg_ls tg).
    - destruct (tg_host tg =? 0) eqn:E; [specialize (H eq_refl); lia|]. cbv zeta.
      match goal with |- context [match ?X with SzErr => _ | SzNone => _ | SzSome _ _ => _ end] => destruct X end; try congruence.
      destruct (read_sectors _ _ _ _ _); congruence.
    - destruct (read_sectors _ _ _ _ _); congruence. }
  rewrite <- O in *. destruct (tg_ls tg) eqn:Ls.
  - pose proof (lockspace_written dv tg force l old false stack se Ls (H eq_refl) B G Ws Le R V) as K. rewrite Ls in K.
    destruct (write_leader _ _ _ _ _ _) as [dv' done]. destruct K as (K1 & K2 & _). split; assumption.
  - pose proof (resource_written dv tg force l old false stack se Ls B G Ws Le R V) as K. rewrite Ls in K.
    destruct (write_leader _ _ _ _ _ _) as [dv' done]. destruct K as (K1 & K2 & _). unfold at_off. rewrite Ls, N.add_0_r. split; assumption.
Qed.

(* The option to keep the checksum of the file makes no difference to the disk. *)
Theorem C83_force_ignored :
  forall dv tg file stack se, write_leader dv tg true file stack se = write_leader dv tg false file stack se.
Proof.
  intros. unfold write_leader. destruct (read_leader_ret dv tg zero_leader stack) as [lr ok]. destruct file as [f|]; [|reflexivity].
  unfold read_file_leader. set (s := file_loop (length f) (tg_ls tg) f (mkF lr 0)). clearbody s. cbv zeta.
  unfold clobber, leader_bytes. rewrite !out_sum. cbn [set_sum l_sector_size]. reflexivity.
Qed.

(* a record and a disk for the witnesses *)
Definition w_lr : leader :=
  mkLeader PAXOS_DISK_MAGIC 393219 1 512 200 2000 1 7 5 (pad48 (txt "ls")) (pad48 (txt "res")) 99 0 0 0 10 1 7 99.
Definition w_ls : leader :=
  mkLeader DELTA_DISK_MAGIC 196612 1 512 0 2000 1 7 0 (pad48 (txt "ls")) (pad48 (txt "host")) 99 0 0 0 10 0 0 0.
Definition disk_of (r : leader) : device :=
  let b := leader_bytes r (zeros LEADER_SIZE) in mkDev 1048576 (fun i => if i <? 200 then nth (N.to_nat i) b 0 else 0) (fun _ _ => false).
Definition broken : device := mkDev 1048576 (fun _ => 0) (fun _ _ => true).
Definition w_res : target := mkTg false 0 0 512 1048576.
Definition w_space : target := mkTg true 0 1 512 1048576.
Definition w_set : list setting := [Num NLver 6; Space (txt "other")].

Lemma disk_bytes r : leader_wf r -> bytes_dev (disk_of r).
Proof.
  intros W i. unfold disk_of. cbn [dv_byte]. destruct (i <? 200); [|reflexivity].
  assert (A : all_bytes (leader_bytes r (zeros LEADER_SIZE))).
  { unfold leader_bytes. cbv zeta. apply all_bytes_put; [|apply le_enc_bytes]. unfold leader_record_out.
    assert (Z : all_bytes (zeros LEADER_SIZE)) by (unfold all_bytes, zeros; apply Forall_forall; intros x I; apply repeat_spec in I; subst; reflexivity).
    unfold leader_wf in W. destruct W as (_&_&_&_&_&_&_&_&_&(_&Ha)&(_&Hb)&_).
    unfold leader_record_writes, puts. cbn [fold_left fst snd]. repeat (apply all_bytes_put; [|first [apply le_enc_bytes|assumption]]). exact Z. }
  destruct (Nat.lt_ge_cases (N.to_nat i) (length (leader_bytes r (zeros LEADER_SIZE)))) as [L|L].
  - unfold all_bytes in A. rewrite Forall_forall in A. apply A, nth_In, L.
  - rewrite nth_overflow by exact L. reflexivity.
Qed.
Lemma w_wf : leader_wf w_lr /\ leader_wf w_ls.
Proof.
  assert (P : forall s, wordlike s -> length (pad48 s) = NAME_ID_SIZE /\ all_bytes (pad48 s)) by exact pad48_ok.
  assert (W : forall s, forallb (fun c => (c <? 256) && negb (c =? 0) && negb (is_space c)) s = true -> (length s <= 48)%nat -> wordlike s).
  { intros t H L. split; [exact L|]. rewrite forallb_forall in H. apply Forall_forall. intros c I. specialize (H c I). lia. }
  split; unfold leader_wf, w_lr, w_ls, u16, u32, u64;
    cbn [l_magic l_version l_flags l_sector_size l_num_hosts l_max_hosts l_owner_id l_owner_generation l_lver
         l_space_name l_resource_name l_timestamp l_unused1 l_checksum l_unused2 l_io_timeout l_write_id l_write_generation l_write_timestamp];
    repeat (split; [reflexivity|]); (split; [apply P, W; [reflexivity|cbn; lia]|]); (split; [apply P, W; [reflexivity|cbn; lia]|]);
    repeat split; reflexivity.
Qed.
Lemma w_good : Forall good w_set.
Proof.
  apply Forall_cons; [reflexivity|]. apply Forall_cons; [|apply Forall_nil]. split; [|discriminate]. split; [cbn; lia|].
  repeat (apply Forall_cons; [split; [reflexivity|split; [discriminate|reflexivity]]|]). apply Forall_nil.
Qed.

(* a lockspace record that was accepted is not accepted afterwards *)
Theorem C83_checksum_refuted :
  exists dv tg l old stack se,
    tg_ls tg = true /\ bytes_dev dv /\ Forall good l /\ leader_wf stack /\ length se = LEADER_SIZE /\
    read_leader_ret dv tg zero_leader stack = (old, true) /\ l_checksum old = leader_checksum (stored dv (tg_off tg)) /\
    let dv' := fst (write_leader dv tg false (Some (flat_map (text true) l)) stack se) in
    l_checksum (leader_record_in (stored dv' (tg_off tg))) <> leader_checksum (stored dv' (tg_off tg)).
Proof.
  exists (disk_of w_ls), w_space, w_set, (fst (read_leader_ret (disk_of w_ls) w_space zero_leader w_lr)), w_lr, (zeros LEADER_SIZE).
  split; [reflexivity|]. split; [apply disk_bytes, w_wf|]. split; [exact w_good|]. split; [apply w_wf|]. split; [reflexivity|].
  split; [vm_compute; reflexivity|]. split; [vm_compute; reflexivity|]. vm_compute. intros E. discriminate E.
Qed.
(* a resource record that cannot be read is replaced *)
Theorem C83_unread_refuted :
  exists dv tg l old stack se,
    bytes_dev dv /\ Forall good l /\ leader_wf stack /\ length se = LEADER_SIZE /\
    read_leader_ret dv tg zero_leader stack = (old, false) /\
    let dv' := fst (write_leader dv tg false (Some (flat_map (text (tg_ls tg)) l)) stack se) in
    exists i, dv_byte dv' i <> dv_byte dv i.
Proof.
  exists broken, w_res, w_set, w_lr, w_lr, (zeros LEADER_SIZE).
  split; [intros i; reflexivity|]. split; [exact w_good|]. split; [apply w_wf|]. split; [reflexivity|].
  split; [reflexivity|]. exists 0. vm_compute. intros E. discriminate E.
Qed.
Theorem C83_refuted : ~ C83_statement.
Proof.
  intros H. specialize (H broken w_res false w_set w_lr (zeros LEADER_SIZE) (fun i => eq_refl) w_good eq_refl (proj1 w_wf)). cbv zeta in H.
  assert (R : read_leader_ret broken w_res zero_leader w_lr = (w_lr, false)) by reflexivity. rewrite R in H. clear R.
  remember (write_leader broken w_res false (Some (flat_map (text (tg_ls w_res)) w_set)) w_lr (zeros LEADER_SIZE)) as q eqn:Q.
  destruct q as [dv' done]. destruct H as [H _]. specialize (H eq_refl).
  assert (D : dv_byte dv' 0 = 0) by (rewrite H; reflexivity).
  assert (E : dv' = fst (write_leader broken w_res false (Some (flat_map (text (tg_ls w_res)) w_set)) w_lr (zeros LEADER_SIZE))) by (rewrite <- Q; reflexivity).
  rewrite E in D. clear - D. vm_compute in D. discriminate D.
Qed.
(* with another sector size in the file the record of host 2 is left and that of host 9 overwritten *)
Definition two_spaces : device :=
  let b := leader_bytes w_ls (zeros LEADER_SIZE) in
  mkDev 1048576 (fun i => if i mod 512 <? 200 then nth (N.to_nat (i mod 512)) b 0 else 0) (fun _ _ => false).
Theorem C83_place_refuted :
  exists dv tg l old stack se,
    tg_ls tg = true /\ tg_host tg = 2 /\ Forall good l /\ length se = LEADER_SIZE /\
    read_leader_ret dv tg zero_leader stack = (old, true) /\ l_sector_size old = 512 /\
    let '(dv', done) := write_leader dv tg false (Some (flat_map (text true) l)) stack se in
    done = true /\ stored dv' (tg_off tg + 512) = stored dv (tg_off tg + 512) /\ stored dv' (tg_off tg + 8 * 512) <> stored dv (tg_off tg + 8 * 512).
Proof.
  exists two_spaces, (mkTg true 0 2 512 1048576), [Num NSector 4096; Num NGen 8], (fst (read_leader_ret two_spaces (mkTg true 0 2 512 1048576) zero_leader w_lr)), w_lr, (zeros LEADER_SIZE).
  split; [reflexivity|]. split; [reflexivity|]. split; [repeat (apply Forall_cons; [reflexivity|]); apply Forall_nil|]. split; [reflexivity|].
  split; [vm_compute; reflexivity|]. split; [vm_compute; reflexivity|].
  assert (A : forall q : device * bool, snd q = true /\ stored (fst q) 512 = stored two_spaces 512 /\ stored (fst q) 4096 <> stored two_spaces 4096 ->
    let '(dv', done) := q in done = true /\ stored dv' 512 = stored two_spaces 512 /\ stored dv' 4096 <> stored two_spaces 4096).
  { intros [dv' done] H. exact H. }
  apply A. split; [vm_compute; reflexivity|]. split; [vm_compute; reflexivity|]. vm_compute. intros E. discriminate E.
Qed.
(* a name with a blank does not survive printing and writing back *)
Theorem C83_write_back_refuted :
  exists lr, leader_wf lr /\ l_space_name (read_file_leader false true (print_leader false lr) lr) <> l_space_name lr.
Proof.
  exists (mkLeader PAXOS_DISK_MAGIC 393219 1 512 200 2000 1 7 5 (txt "a b" ++ zeros 45) (pad48 (txt "res")) 99 0 0 0 10 1 7 99). split.
  - destruct (proj1 w_wf) as (W1&W2&W3&W4&W5&W6&W7&W8&W9&Wa&Wb&W10).
    unfold leader_wf. cbn [l_space_name].
    repeat (split; [first [exact W1|exact W2|exact W3|exact W4|exact W5|exact W6|exact W7|exact W8|exact W9]|]).
    split; [split; [reflexivity|apply Forall_forall; intros c I; apply in_app_or in I as [I|I]]|].
    + cbn in I. repeat (destruct I as [<-|I]; [reflexivity|]). destruct I.
    + apply repeat_spec in I. subst. reflexivity.
    + split; [exact Wb|exact W10].
  - vm_compute. intros E. discriminate E.
Qed.
(* numbers in the other base are taken for something else or ignored without a word *)
Theorem C83_other_base_refuted :
  exists lr, l_lver (read_file_leader false false (txt "lver 0x10" ++ [10]) lr) = 0 /\ l_lver lr = 5 /\
    l_magic (read_file_leader false false (txt "magic 100" ++ [10]) lr) = l_magic lr.
Proof. exists w_lr. split; [vm_compute; reflexivity|]. split; [reflexivity|vm_compute; reflexivity]. Qed.

Example C83_nonvacuous :
  Forall good w_set /\ named (l_space_name w_lr) /\ valid_ss (last_sector w_set w_lr) /\
  snd (read_leader_ret (disk_of w_lr) w_res zero_leader w_ls) = true /\
  (let q := write_leader (disk_of w_lr) w_res false (Some (flat_map (text false) w_set)) w_ls (zeros LEADER_SIZE) in
   snd q = true /\ l_lver (leader_record_in (stored (fst q) 0)) = 6 /\ l_owner_generation (leader_record_in (stored (fst q) 0)) = 7 /\
   l_space_name (leader_record_in (stored (fst q) 0)) = pad48 (txt "other")) /\
  read_file_leader false true (print_leader false w_lr) w_lr = w_lr.
Proof.
  split; [exact w_good|]. split.
  { exists (txt "ls"). split; [|reflexivity]. split; [cbn; lia|]. repeat (apply Forall_cons; [split; [reflexivity|split; [discriminate|reflexivity]]|]). apply Forall_nil. }
  split; [left; reflexivity|]. split; [vm_compute; reflexivity|]. split; [|vm_compute; reflexivity].
  split; [vm_compute; reflexivity|]. split; [vm_compute; reflexivity|]. split; vm_compute; reflexivity.
Qed.

Print Assumptions C83_settings.
Print Assumptions C83_write_back.
Print Assumptions C83_resource_partial.
Print Assumptions C83_lockspace_partial.
Print Assumptions C83_nothing_written.
Print Assumptions C83_unread.
Print Assumptions C83_force_ignored.
Print Assumptions C83_refuted.
Print Assumptions C83_checksum_refuted.
Print Assumptions C83_unread_refuted.
Print Assumptions C83_place_refuted.
Print Assumptions C83_write_back_refuted.
Print Assumptions C83_other_base_refuted.
