(* C80: the settings of the daemon are the ones its configuration file and its command line give. *)
From Coq Require Import Ascii String List NArith ZArith Lia Bool Arith.
From Verif Require Import Bytes Strings ArgStr StatusOut ConfFile.
Import ListNotations.
Open Scope N_scope.

(* ---------------- specification ---------------- *)
(* a configuration file: comments, empty lines, settings "name = value" with blanks around the sign and perhaps
   something behind the value, and names with no value *)
Inductive item :=
| Note (t : bytes)
| Blank
| Setting (name sp1 sp2 value rest : bytes)
| Bare (name sp1 : bytes) (sign : option bytes).
Definition body (i : item) : bytes :=
  match i with
  | Note t => 35 :: t
  | Blank => []
  | Setting n a b v t => n ++ a ++ [61] ++ b ++ v ++ t
  | Bare n a s => n ++ a ++ match s with None => [] | Some b => 61 :: b end
  end.
Definition text (items : list item) : bytes := concat (map (fun i => body i ++ [10]) items).

Definition blank (x : N) : Prop := x = 32 \/ x = 9.
Definition white (x : N) : Prop := x = 32 \/ x = 9 \/ x = 11 \/ x = 12 \/ x = 13.
Definition name_ok (n : bytes) : Prop :=
  Forall (fun x => x <> 32 /\ x <> 9 /\ x <> 10 /\ x <> 61 /\ x <> 0) n /\ exists x r, n = x :: r /\ x <> 35.
Definition item_ok (i : item) : Prop :=
  match i with
  | Note t => Forall (fun x => x <> 10 /\ x <> 0) t
  | Blank => True
  | Setting n a b v t =>
    name_ok n /\ Forall blank a /\ Forall white b /\ v <> [] /\
    Forall (fun x => ~ white x /\ x <> 10 /\ x <> 0) v /\
    Forall (fun x => x <> 10 /\ x <> 0) t /\ (t = [] \/ exists x r, t = x :: r /\ white x)
  | Bare n a s => name_ok n /\ Forall blank a /\ match s with None => True | Some b => Forall white b end
  end.
(* the line and its end fit the buffer *)
Definition short (i : item) : Prop := (length (body i) <= 126)%nat.

(* decimal numerals *)
Fixpoint digit_vals (s : bytes) (acc : Z) : option Z :=
  match s with
  | [] => Some acc
  | x :: r => if (48 <=? x) && (x <=? 57) then digit_vals r (10 * acc + (Z.of_N x - 48))%Z else None
  end.
Definition numeral (s : bytes) : option Z :=
  match s with
  | [] => None
  | x :: r =>
    if x =? 45 then match r with [] => None | _ => option_map Z.opp (digit_vals r 0) end
    else if x =? 43 then match r with [] => None | _ => digit_vals r 0 end
    else digit_vals s 0
  end.
Definition fits_int (z : Z) : Prop := (- 2 ^ 31 <= z < 2 ^ 31)%Z.

(* the settings that are numbers: name, member, and what the member becomes when the value is z *)
Definition every (z : Z) : option Z := Some z.
Definition positive_only (z : Z) : option Z := if (z >? 0)%Z then Some z else None.
Definition upto60 (z : Z) : option Z := if ((0 <=? z) && (z <=? 60))%Z then Some z else None.
Definition at_least_2 (z : Z) : option Z := Some (Z.max 2 z).
Definition yes (z : Z) : option Z := Some 1%Z.
Definition yes60 (z : Z) : option Z := if ((0 <=? z) && (z <=? 60))%Z then Some 1%Z else None.
Definition doc : list (string * ikey * (Z -> option Z)) :=
  [ ("quiet_fail", QuietFail, every); ("debug_renew", DebugRenew, every); ("use_aio", AioArg, every);
    ("logfile_priority", LogfilePriority, every); ("logfile_use_utc", LogfileUseUtc, every);
    ("syslog_priority", SyslogPriority, every); ("names_log_priority", NamesLogPriority, every);
    ("use_watchdog", UseWatchdog, every); ("high_priority", HighPriority, every);
    ("io_timeout", IoTimeout, positive_only); ("watchdog_fire_timeout", FireTimeout, positive_only);
    ("write_init_io_timeout", WriteInitTimeout, positive_only);
    ("kill_grace_seconds", KillGrace, upto60); ("kill_grace_seconds", KillGraceSet, yes60);
    ("mlock_level", MlockLevel, every); ("sh_retries", ShRetries, every);
    ("renewal_read_extend_sec", ReadExtend, every); ("renewal_read_extend_sec", ReadExtendSet, yes);
    ("renewal_history_size", HistorySize, every); ("paxos_debug_all", PaxosDebugAll, every);
    ("debug_clients", DebugClients, every); ("max_worker_threads", MaxWorkers, at_least_2) ]%string.
Definition same (a b : bytes) : bool := if list_eq_dec N.eq_dec a b then true else false.
Definition is_number (n : bytes) : Prop := exists s k e, In (s, k, e) doc /\ n = txt s.

(* what one line makes of a member *)
Definition becomes (n : string) (e : Z -> option Z) (v : Z) (i : item) : Z :=
  match i with
  | Setting m _ _ value _ =>
    if same m (txt n) then
      match numeral value with
      | Some z => match e z with Some w => w | None => v end
      | None => v
      end
    else v
  | _ => v
  end.
(* a number for every setting that is one *)
Definition numeric (i : item) : Prop :=
  match i with
  | Setting m _ _ value _ => is_number m -> exists z, numeral value = Some z /\ fits_int z
  | Bare m _ _ => ~ is_number m
  | _ => True
  end.

(* full statement: in every file, each of these settings is the one of the last line that gives it a value *)
Definition C80_statement : Prop :=
  forall junk pw gr items c n k e, Forall item_ok items -> In (n, k, e) doc ->
  c_int (conf_read junk pw gr (text items) c) k = fold_left (becomes n e) items (c_int c k).

(* settings that are strings *)
Definition str_doc : list (string * skey * (bytes -> bytes)) :=
  [ ("uname", Uname, fun s => s); ("gname", Gname, fun s => s); ("our_host_name", OurHostName, firstn 48) ]%string.
Definition becomes_str (n : string) (f : bytes -> bytes) (v : option bytes) (i : item) : option bytes :=
  match i with Setting m _ _ value _ => if same m (txt n) then Some (f value) else v | _ => v end.
Definition named (l : list string) (i : item) : Prop :=
  match i with Bare m _ _ => ~ In m (map txt l) | _ => True end.

(* the ids belong to the names *)
Definition becomes_id (n : string) (db : bytes -> option Z) (v : Z) (i : item) : Z :=
  match i with
  | Setting m _ _ value _ => if same m (txt n) then match db value with Some x => x | None => 0%Z end else v
  | _ => v
  end.

(* the commands with a debug switch, by number (src/sanlock_sock.h:23-62) *)
Definition commands : list string :=
  [ "register"; "add_lockspace"; "rem_lockspace"; "shutdown"; "status"; "log_dump"; "acquire"; "release";
    "inquire"; "restrict"; "request"; "align"; "examine_lockspace"; "examine_resource"; "host_status";
    "inq_lockspace"; "killpath"; "write_lockspace"; "write_resource"; "read_lockspace"; "read_resource";
    "get_lockspaces"; "get_hosts"; "read_resource_owners"; "set_lvb"; "get_lvb"; "convert"; "version";
    "shutdown_wait"; "reg_event"; "end_event"; "set_event"; "set_config"; "renewal"; "format_rindex";
    "update_rindex"; "lookup_rindex"; "create_resource"; "delete_resource"; "rebuild_rindex" ]%string.
Definition becomes_dbg (b : nat) (v : bool) (i : item) : bool :=
  match i with
  | Setting m _ _ value _ =>
    if same m (txt "debug_cmd") then
      if same value (txt "+all") then true
      else if same value (txt "-all") then false
      else match nth_error commands (b - 1) with
           | Some w => if same value (txt ("+" ++ w)) then true else if same value (txt ("-" ++ w)) then false else v
           | None => v
           end
    else v
  | _ => v
  end.

(* max_sectors_kb: ignore, align, or an even number up to 8192 *)
Definition kb (c : com) : Z * Z * Z := (c_int c KbIgnore, c_int c KbAlign, c_int c KbNum).
Definition becomes_kb (v : Z * Z * Z) (i : item) : Z * Z * Z :=
  match i with
  | Setting m _ _ value _ =>
    if same m (txt "max_sectors_kb") then
      if same value (txt "ignore") then (1, 0, 0)%Z
      else if same value (txt "align") then (0, 1, 0)%Z
      else match numeral value with
           | Some z => if ((2 <=? z) && (z <=? 8192) && Z.even z)%Z then (0, 0, z)%Z else v
           | None => v
           end
    else v
  | _ => v
  end.
Definition kb_plain (i : item) : Prop :=
  match i with
  | Setting m _ _ value _ =>
    m = txt "max_sectors_kb" ->
    value = txt "ignore" \/ value = txt "align" \/
    exists z x r, numeral value = Some z /\ (0 <= z < 2 ^ 31)%Z /\ value = x :: r /\ x <> 43 /\ x <> 45
  | _ => True
  end.

(* debug_io *)
Definition contains (s p : bytes) : Prop := exists a b, s = a ++ p ++ b.
Definition asks (w : string) (i : item) : Prop :=
  match i with Setting m _ _ value _ => m = txt "debug_io" /\ contains value (txt w) | _ => False end.

(* command line: option letter, member, what the member becomes *)
Definition flag (z : Z) : option Z := Some (if (z =? 0)%Z then 0 else 1)%Z.
Definition opt_doc : list (string * ikey * (Z -> option Z)) :=
  [ ("Q", QuietFail, every); ("R", DebugRenew, every); ("H", HistorySize, every); ("L", LogfilePriority, every);
    ("S", SyslogPriority, every); ("a", AioArg, flag); ("t", MaxWorkers, at_least_2); ("w", UseWatchdog, every);
    ("h", HighPriority, every); ("l", MlockLevel, every); ("o", IoTimeout, positive_only);
    ("g", KillGrace, upto60); ("g", KillGraceSet, yes60) ]%string.
(* an option and its argument *)
Definition letters : bytes := txt "QRHLSatwhlogeUGFbnmpdifsrOPuxzAZ".
Definition cmdline (l : list (N * bytes)) : list bytes := flat_map (fun p => [[45; fst p]; snd p]) l.
Definition becomes_opt (ch : string) (e : Z -> option Z) (v : Z) (p : N * bytes) : Z :=
  if same [fst p] (txt ch) then
    match numeral (snd p) with Some z => match e z with Some w => w | None => v end | None => v end
  else v.
Definition opt_numeric (p : N * bytes) : Prop :=
  (exists ch k e, In (ch, k, e) opt_doc /\ [fst p] = txt ch) -> exists z, numeral (snd p) = Some z /\ fits_int z.

(* ---------------- basic lemmas ---------------- *)
Lemma eqb_bytes_iff a : forall b, eqb_bytes a b = true <-> a = b.
Proof.
  induction a as [|x a IH]; intros [|y b]; cbn; try (split; (reflexivity || discriminate)).
  rewrite andb_true_iff, N.eqb_eq, IH. split; [intros [-> ->]|intros [= -> ->]]; auto.
Qed.
Lemma eqs_iff a s : eqs a s = true <-> a = txt s.
Proof. apply eqb_bytes_iff. Qed.
Lemma eqs_not a s : eqs a s = false -> a <> txt s.
Proof. intros H X. apply eqs_iff in X. rewrite X in H. discriminate. Qed.
Lemma same_iff a b : same a b = true <-> a = b.
Proof. unfold same. destruct (list_eq_dec N.eq_dec a b); split; auto; discriminate. Qed.
Lemma same_not a b : a <> b -> same a b = false.
Proof. unfold same. destruct (list_eq_dec N.eq_dec a b); tauto. Qed.
Lemma ikey_eqb_refl k : ikey_beq k k = true.
Proof. destruct k; reflexivity. Qed.

Lemma take_while_app f a x r : Forall (fun c => f c = true) a -> f x = false -> take_while f (a ++ x :: r) = a.
Proof. induction 1; cbn; intros; [rewrite H; auto|rewrite H, IHForall; auto]. Qed.
Lemma take_while_all f a : Forall (fun c => f c = true) a -> take_while f a = a.
Proof. induction 1; cbn; auto. rewrite H, IHForall. auto. Qed.
Lemma drop_while_app f a x r : Forall (fun c => f c = true) a -> f x = false -> drop_while f (a ++ x :: r) = x :: r.
Proof. induction 1; cbn; intros; [rewrite H; auto|rewrite H; auto]. Qed.
Lemma drop_while_all f a : Forall (fun c => f c = true) a -> drop_while f a = [].
Proof. induction 1; cbn; auto. rewrite H. auto. Qed.
Lemma take_while_len f s : (length (take_while f s) <= length s)%nat.
Proof. induction s; cbn; [lia|]. destruct (f a); cbn; lia. Qed.
Lemma drop_while_len f s : (length (drop_while f s) <= length s)%nat.
Proof. induction s; cbn; [lia|]. destruct (f a); cbn; lia. Qed.
Lemma skip_space_len s : (length (skip_space s) <= length s)%nat.
Proof. induction s; cbn; [lia|]. destruct (is_space a); cbn; lia. Qed.
Lemma upto_nul_len s : (length (upto_nul s) <= length s)%nat.
Proof. induction s; cbn; [lia|]. destruct (a =? 0); cbn; lia. Qed.
Lemma upto_nul_id s : Forall (fun x => x <> 0) s -> upto_nul s = s.
Proof. induction 1; cbn; auto. apply N.eqb_neq in H. rewrite H, IHForall. auto. Qed.
Lemma skip_white b x r : Forall white b -> is_space x = false -> skip_space (b ++ x :: r) = x :: r.
Proof.
  induction 1 as [|y b W _ IH]; cbn; intros Hx; [rewrite Hx; auto|].
  assert (is_space y = true) as ->; [|auto].
  unfold white in W. unfold is_space. destruct W as [->|[->|[->|[->| ->]]]]; reflexivity.
Qed.
Lemma skip_white_all b : Forall white b -> skip_space (b ++ [10]) = [].
Proof.
  induction 1 as [|y b W _ IH]; cbn; auto.
  assert (is_space y = true) as ->; [|auto].
  unfold white in W. unfold is_space. destruct W as [->|[->|[->|[->| ->]]]]; reflexivity.
Qed.
Lemma not_white_space x : ~ white x -> x <> 10 -> is_space x = false.
Proof.
  unfold white, is_space. intros W T.
  destruct (x =? 32) eqn:A; [apply N.eqb_eq in A; tauto|].
  destruct ((9 <=? x) && (x <=? 13)) eqn:B; auto.
  rewrite andb_true_iff, !N.leb_le in B.
  assert (x = 9 \/ x = 10 \/ x = 11 \/ x = 12 \/ x = 13) by lia. tauto.
Qed.

(* ---------------- lines ---------------- *)
Lemma fgets_line b r : forall n, Forall (fun x => x <> 10) b -> (length b < n)%nat ->
  fgets n (b ++ 10 :: r) = (b ++ [10], r).
Proof.
  induction b as [|x b IH]; intros [|n] H L; cbn in *; try lia; auto.
  inversion_clear H as [|? ? Hx Hb]. apply N.eqb_neq in Hx. rewrite Hx, IH; auto. lia.
Qed.
Lemma fgets_end b : forall n, Forall (fun x => x <> 10) b -> (length b < n)%nat -> fgets n b = (b, []).
Proof.
  induction b as [|x b IH]; intros [|n] H L; cbn in *; try lia; auto.
  inversion_clear H as [|? ? Hx Hb]. apply N.eqb_neq in Hx. rewrite Hx, IH; auto. lia.
Qed.
Lemma fgets_spec n : forall s, let '(l, r) := fgets n s in s = l ++ r /\ (length l <= n)%nat /\ (n <> 0%nat -> s <> [] -> l <> []).
Proof.
  induction n as [|n IH]; intros [|x s]; cbn; try (split; [auto|split; [cbn; lia|intros; congruence]]).
  destruct (x =? 10); [split; [auto|split; [cbn; lia|intros; congruence]]|].
  specialize (IH s). destruct (fgets n s) as [a b]. destruct IH as (-> & L & _).
  split; [auto|split; [cbn; lia|intros; congruence]].
Qed.
Lemma max_val : (MAX_CONF_LINE - 1)%nat = 127%nat.
Proof. reflexivity. Qed.
Global Opaque MAX_CONF_LINE.

Lemma item_no_nl i : item_ok i -> Forall (fun x => x <> 10) (body i).
Proof.
  destruct i as [t| |n a b v t|n a s]; cbn.
  - intros H. constructor; [lia|]. eapply Forall_impl; [|exact H]. cbn. tauto.
  - constructor.
  - intros ((Hn & _) & Ha & Hb & _ & Hv & Ht & _).
    apply Forall_app. split; [eapply Forall_impl; [|exact Hn]; cbn; tauto|].
    apply Forall_app. split; [eapply Forall_impl; [|exact Ha]; unfold blank; cbn; lia|].
    constructor; [lia|].
    apply Forall_app. split; [eapply Forall_impl; [|exact Hb]; unfold white; cbn; lia|].
    apply Forall_app. split; [eapply Forall_impl; [|exact Hv]|eapply Forall_impl; [|exact Ht]]; cbn; tauto.
  - intros ((Hn & _) & Ha & Hs).
    apply Forall_app. split; [eapply Forall_impl; [|exact Hn]; cbn; tauto|].
    apply Forall_app. split; [eapply Forall_impl; [|exact Ha]; unfold blank; cbn; lia|].
    destruct s as [b|]; constructor; [lia|]. eapply Forall_impl; [|exact Hs]. unfold white; cbn; lia.
Qed.
Lemma item_no_nul i : item_ok i -> Forall (fun x => x <> 0) (body i).
Proof.
  destruct i as [t| |n a b v t|n a s]; cbn.
  - intros H. constructor; [lia|]. eapply Forall_impl; [|exact H]. cbn. tauto.
  - constructor.
  - intros ((Hn & _) & Ha & Hb & _ & Hv & Ht & _).
    apply Forall_app. split; [eapply Forall_impl; [|exact Hn]; cbn; tauto|].
    apply Forall_app. split; [eapply Forall_impl; [|exact Ha]; unfold blank; cbn; lia|].
    constructor; [lia|].
    apply Forall_app. split; [eapply Forall_impl; [|exact Hb]; unfold white; cbn; lia|].
    apply Forall_app. split; [eapply Forall_impl; [|exact Hv]|eapply Forall_impl; [|exact Ht]]; cbn; tauto.
  - intros ((Hn & _) & Ha & Hs).
    apply Forall_app. split; [eapply Forall_impl; [|exact Hn]; cbn; tauto|].
    apply Forall_app. split; [eapply Forall_impl; [|exact Ha]; unfold blank; cbn; lia|].
    destruct s as [b|]; constructor; [lia|]. eapply Forall_impl; [|exact Hs]. unfold white; cbn; lia.
Qed.

Lemma loop_items pw gr items : forall fuel st, Forall item_ok items -> Forall short items ->
  (length (text items) <= fuel)%nat ->
  conf_loop fuel pw gr (text items) st = fold_left (fun st i => conf_line pw gr (body i ++ [10]) st) items st.
Proof.
  induction items as [|i items IH]; intros fuel st O S L.
  - destruct fuel; reflexivity.
  - inversion_clear O as [|? ? Oi Os]. inversion_clear S as [|? ? Si Ss].
    cbn [text map concat] in *. fold (text items) in *.
    rewrite <- app_assoc in *. cbn [app] in *.
    assert (L' : (length (body i) + Datatypes.S (length (text items)) <= fuel)%nat)
      by (rewrite app_length in L; cbn [length] in L; exact L).
    destruct fuel as [|fuel]; [lia|].
    assert (E : conf_loop (Datatypes.S fuel) pw gr (body i ++ 10 :: text items) st =
                let '(l, r) := fgets (MAX_CONF_LINE - 1) (body i ++ 10 :: text items) in
                conf_loop fuel pw gr r (conf_line pw gr l st)) by (destruct (body i); reflexivity).
    rewrite E, fgets_line; [|apply item_no_nl; auto|rewrite max_val; unfold short in Si; lia].
    cbn [fold_left]. apply IH; auto. lia.
Qed.

(* what a line is taken for *)
Definition do_option (pw gr : bytes -> option Z) (name line : bytes) (st : com * Z) : com * Z :=
  let val1 := val_after name (get_val_int line (snd st)) in
  match int_opt name val1 (fst st) with
  | Some c' => (c', val1)
  | None => (str_opt pw gr name line (fst st), snd st)
  end.
Lemma name_word n a r x : name_ok n -> Forall blank a -> x = 61 \/ x = 10 -> word (n ++ a ++ x :: r) = n.
Proof.
  intros (Hn & _) Ha Hx. unfold word.
  assert (Hn' : Forall (fun c => word_char c = true) n).
  { eapply Forall_impl; [|exact Hn]. intros y (A & B & C & D & _). unfold word_char.
    apply N.eqb_neq in A, B, C, D. rewrite A, B, C, D. reflexivity. }
  destruct Ha as [|y a W _].
  - cbn [app]. apply take_while_app; auto. destruct Hx as [->| ->]; reflexivity.
  - cbn [app]. apply take_while_app; auto. destruct W as [->| ->]; reflexivity.
Qed.
Lemma name_first n r pw gr st : name_ok n ->
  (let '(c, val) := st in
   if match n ++ r with x :: _ => (x =? 35) || (x =? 10) | [] => false end then st
   else let name := word (n ++ r) in
        let val1 := val_after name (get_val_int (n ++ r) val) in
        match int_opt name val1 c with
        | Some c' => (c', val1)
        | None => (str_opt pw gr name (n ++ r) c, val)
        end) = do_option pw gr (word (n ++ r)) (n ++ r) st.
Proof.
  intros (F & x & r' & -> & Hx). inversion_clear F as [|? ? Fx _]. destruct st as [c val]. cbn [app].
  assert (E : (x =? 35) || (x =? 10) = false).
  { apply orb_false_iff. rewrite !N.eqb_neq. tauto. }
  rewrite E. reflexivity.
Qed.
Lemma name_key n a : name_ok n -> Forall blank a -> Forall (fun c => not_eq_sign c = true) (n ++ a) /\ n ++ a <> [].
Proof.
  intros (Hn & x & r & E & _) Ha. split; [|rewrite E; discriminate].
  apply Forall_app. split.
  - eapply Forall_impl; [|exact Hn]. intros y (_ & _ & _ & D & _). unfold not_eq_sign. apply N.eqb_neq in D. rewrite D. auto.
  - eapply Forall_impl; [|exact Ha]. intros y [->| ->]; reflexivity.
Qed.
Lemma scan_setting n a b v t e : name_ok n -> Forall blank a -> Forall white b -> v <> [] ->
  Forall (fun x => ~ white x /\ x <> 10 /\ x <> 0) v -> (t = [] \/ exists x r, t = x :: r /\ white x) ->
  e = [] \/ e = [10] -> scan2 ((n ++ a) ++ 61 :: b ++ v ++ t ++ e) = Some v.
Proof.
  intros Hn Ha Hb Nv Hv Ht He. destruct (name_key n a Hn Ha) as [K N0]. unfold scan2.
  assert (E1 : scan_key ((n ++ a) ++ 61 :: b ++ v ++ t ++ e) = n ++ a) by (apply take_while_app; auto).
  assert (E2 : scan_val ((n ++ a) ++ 61 :: b ++ v ++ t ++ e) = v).
  { unfold scan_val. rewrite drop_while_app; auto.
    assert (Hv' : Forall (fun c => negb (is_space c) = true) v).
    { eapply Forall_impl; [|exact Hv]. intros y (A & B & _). rewrite not_white_space; auto. }
    destruct v as [|y v]; [congruence|]. cbn [app].
    inversion_clear Hv as [|? ? Hy _]. rewrite skip_white; [|auto|apply not_white_space; tauto].
    change (y :: v ++ t ++ e) with ((y :: v) ++ t ++ e).
    destruct Ht as [->|(x & r & -> & Wx)].
    - cbn [app]. destruct He as [->| ->]; [rewrite app_nil_r; apply take_while_all; auto|apply (take_while_app _ (y :: v) 10 []); auto].
    - cbn [app]. apply (take_while_app _ (y :: v) x (r ++ e)); auto. destruct Wx as [->|[->|[->|[->| ->]]]]; reflexivity. }
  rewrite E1, E2. destruct (n ++ a); [congruence|]. destruct v; congruence.
Qed.
Lemma scan_bare n a s : name_ok n -> Forall blank a -> match s with None => True | Some b => Forall white b end ->
  scan2 ((n ++ a) ++ match s with None => [] | Some b => 61 :: b end ++ [10]) = None.
Proof.
  intros Hn Ha Hs. destruct (name_key n a Hn Ha) as [K N0]. unfold scan2.
  assert (E2 : scan_val ((n ++ a) ++ match s with None => [] | Some b => 61 :: b end ++ [10]) = []).
  { unfold scan_val. destruct s as [b|].
    - cbn [app]. rewrite drop_while_app; auto. rewrite skip_white_all; auto.
    - cbn [app]. rewrite drop_while_all; auto. apply Forall_app. split; auto. }
  rewrite E2. destruct (scan_key _); auto.
Qed.

Lemma line_note pw gr t st : item_ok (Note t) -> conf_line pw gr (body (Note t) ++ [10]) st = st.
Proof.
  intros O. unfold conf_line. rewrite upto_nul_id; [|apply Forall_app; split; [apply item_no_nul; auto|repeat constructor; lia]].
  destruct st. reflexivity.
Qed.
Lemma line_blank pw gr st : conf_line pw gr (body Blank ++ [10]) st = st.
Proof. destruct st. reflexivity. Qed.
Lemma line_setting pw gr n a b v t st : item_ok (Setting n a b v t) ->
  exists line, scan2 line = Some v /\ conf_line pw gr (body (Setting n a b v t) ++ [10]) st = do_option pw gr n line st.
Proof.
  intros O. pose proof O as (Hn & Ha & Hb & Nv & Hv & _ & Ht).
  unfold conf_line. rewrite upto_nul_id; [|apply Forall_app; split; [apply item_no_nul; auto|repeat constructor; lia]].
  cbn [body]. rewrite <- !app_assoc. cbn [app].
  rewrite name_first; auto. rewrite name_word; auto.
  exists (n ++ a ++ 61 :: b ++ v ++ t ++ [10]). split; auto.
  pose proof (scan_setting n a b v t [10] Hn Ha Hb Nv Hv Ht (or_intror eq_refl)) as X.
  rewrite <- !app_assoc in X. cbn [app] in X. exact X.
Qed.
Lemma line_bare pw gr n a s st : item_ok (Bare n a s) ->
  exists line, scan2 line = None /\ conf_line pw gr (body (Bare n a s) ++ [10]) st = do_option pw gr n line st.
Proof.
  intros O. pose proof O as (Hn & Ha & Hs).
  unfold conf_line. rewrite upto_nul_id; [|apply Forall_app; split; [apply item_no_nul; auto|repeat constructor; lia]].
  cbn [body]. rewrite <- !app_assoc.
  rewrite name_first; auto.
  assert (W : word (n ++ a ++ match s with None => [] | Some b => 61 :: b end ++ [10]) = n).
  { destruct s; cbn [app]; apply name_word; auto. }
  rewrite W. eexists. split; [|reflexivity].
  pose proof (scan_bare n a s Hn Ha Hs) as X. rewrite <- app_assoc in X. exact X.
Qed.

(* ---------------- numbers ---------------- *)
Lemma digit_vals_digits s : forall n z, digit_vals s (Z.of_N n) = Some z -> z = Z.of_N (digits 10 s n).
Proof.
  induction s as [|x s IH]; cbn [digit_vals digits]; intros n z H; [congruence|].
  destruct ((48 <=? x) && (x <=? 57)) eqn:E; [|discriminate].
  assert (D : digit_of 10 x = Some (x - 48)).
  { unfold digit_of. rewrite E. apply andb_true_iff in E. rewrite !N.leb_le in E.
    destruct (x - 48 <? 10) eqn:L; auto. apply N.ltb_ge in L. lia. }
  rewrite D. apply IH. rewrite <- H. f_equal. apply andb_true_iff in E. rewrite !N.leb_le in E. lia.
Qed.
Lemma digit_first x r z n : digit_vals (x :: r) n = Some z -> 48 <= x <= 57.
Proof. cbn. destruct ((48 <=? x) && (x <=? 57)) eqn:E; [|discriminate]. intros _. apply andb_true_iff in E. rewrite !N.leb_le in E. lia. Qed.
Lemma int_of_id z : fits_int z -> int_of z = z.
Proof. unfold fits_int, int_of. intros H. rewrite Z.mod_small; lia. Qed.
Lemma clamp_id z : fits_int z -> clamp_ll z = z.
Proof. unfold fits_int, clamp_ll. lia. Qed.
Lemma atoi_numeral s z : numeral s = Some z -> fits_int z -> atoi s = z.
Proof.
  intros H F. unfold atoi, atoll. destruct s as [|x r]; [discriminate|]. cbn [numeral] in H.
  destruct (x =? 45) eqn:M.
  { apply N.eqb_eq in M. subst x. change (skip_space (45 :: r)) with (45 :: r).
    change (split_sign (45 :: r)) with (true, r). cbv beta iota zeta.
    destruct r as [|y r]; [discriminate|]. destruct (digit_vals (y :: r) 0) as [d|] eqn:E; [|discriminate].
    injection H as <-. apply (digit_vals_digits (y :: r) 0) in E. rewrite <- E, clamp_id, int_of_id; auto. }
  destruct (x =? 43) eqn:P.
  { apply N.eqb_eq in P. subst x. change (skip_space (43 :: r)) with (43 :: r).
    change (split_sign (43 :: r)) with (false, r). cbv beta iota zeta.
    destruct r as [|y r]; [discriminate|].
    apply (digit_vals_digits (y :: r) 0) in H. rewrite <- H, clamp_id, int_of_id; auto. }
  pose proof (digit_first _ _ _ _ H) as D.
  assert (S : skip_space (x :: r) = x :: r).
  { cbn. assert (is_space x = false) as ->; auto. unfold is_space.
    apply orb_false_iff. rewrite andb_false_iff, N.eqb_neq, !N.leb_gt. lia. }
  rewrite S. unfold split_sign. rewrite M, P. cbv beta iota zeta.
  apply (digit_vals_digits (x :: r) 0) in H. rewrite <- H, clamp_id, int_of_id; auto.
Qed.

(* ---------------- settings ---------------- *)
(* cases of a name against the names of the code *)
Ltac by_name n :=
  repeat match goal with
  | |- context [eqs n ?s] =>
    let E := fresh "E" in destruct (eqs n s) eqn:E; [apply eqs_iff in E; subst n|apply eqs_not in E]
  end.

Lemma txt_inj a : forall b, txt a = txt b -> a = b.
Proof.
  induction a as [|x a IH]; intros [|y b]; cbn; intros H; try discriminate; auto.
  injection H as H1 H2. rewrite (IH _ H2). f_equal.
  rewrite <- (ascii_N_embedding x), H1. apply ascii_N_embedding.
Qed.
Lemma same_txt a b : same (txt a) (txt b) = String.eqb a b.
Proof.
  destruct (String.eqb a b) eqn:E.
  - apply String.eqb_eq in E. subst. apply same_iff. auto.
  - apply same_not. intros X. apply txt_inj in X. apply String.eqb_neq in E. auto.
Qed.
(* the only name that changes a member *)
Definition name_of (k : ikey) : string :=
  match k with
  | Debug => "" | QuietFail => "quiet_fail" | DebugRenew => "debug_renew" | AioArg => "use_aio"
  | LogfilePriority => "logfile_priority" | LogfileUseUtc => "logfile_use_utc" | SyslogPriority => "syslog_priority"
  | NamesLogPriority => "names_log_priority" | UseWatchdog => "use_watchdog" | IoTimeout => "io_timeout"
  | FireTimeout => "watchdog_fire_timeout" | KillGrace | KillGraceSet => "kill_grace_seconds"
  | HighPriority => "high_priority" | MlockLevel => "mlock_level" | ShRetries => "sh_retries"
  | Uid => "uname" | Gid => "gname" | ReadExtend | ReadExtendSet => "renewal_read_extend_sec"
  | WriteInitTimeout => "write_init_io_timeout" | HistorySize => "renewal_history_size"
  | PaxosDebugAll => "paxos_debug_all" | IoSubmit | IoComplete => "debug_io" | DebugClients => "debug_clients"
  | KbIgnore | KbAlign | KbNum => "max_sectors_kb" | MaxWorkers => "max_worker_threads"
  end%string.
Lemma seti_at k v c : c_int (seti k v c) k = v.
Proof. cbn. rewrite ikey_eqb_refl. reflexivity. Qed.
Lemma seti_other k v c k' : k' <> k -> c_int (seti k v c) k' = c_int c k'.
Proof. intros H. cbn. destruct (ikey_beq k' k) eqn:E; auto. apply internal_ikey_dec_bl in E. congruence. Qed.
Ltac no_seti :=
  repeat match goal with
  | H : ?m <> txt (name_of ?k) |- context [c_int (seti ?q ?v ?c) ?k] =>
    rewrite (seti_other q v c k); [|intros ->; apply H; reflexivity]
  end.
Lemma int_frame m val c c' k : int_opt m val c = Some c' -> m <> txt (name_of k) -> c_int c' k = c_int c k.
Proof.
  intros H D. revert H. unfold int_opt. by_name m; intros H; try discriminate H.
  all: injection H as <-; try match goal with |- context [if ?b then _ else _] => destruct b end; no_seti; reflexivity.
Qed.
Lemma debug_cmd_int s c k : c_int (debug_cmd s c) k = c_int c k.
Proof. unfold debug_cmd. repeat match goal with |- context [match ?b with _ => _ end] => destruct b end; reflexivity. Qed.
Lemma debug_io_frame s c k : txt "debug_io" <> txt (name_of k) -> c_int (debug_io s c) k = c_int c k.
Proof. intros D. unfold debug_io. do 2 destruct (strstr _ _); no_seti; reflexivity. Qed.
Lemma kb_frame s c k : txt "max_sectors_kb" <> txt (name_of k) -> c_int (max_sectors_kb s c) k = c_int c k.
Proof.
  intros D. unfold max_sectors_kb. destruct (strstr _ _); [no_seti; reflexivity|]. destruct (strstr _ _); [no_seti; reflexivity|].
  destruct s as [|x s]; [reflexivity|]. destruct ((48 <=? x) && (x <=? 57)); [|reflexivity]. cbv zeta.
  match goal with |- context [if ?b then _ else _] => destruct b end; no_seti; reflexivity.
Qed.
Lemma str_frame pw gr m line c k : m <> txt (name_of k) -> c_int (str_opt pw gr m line c) k = c_int c k.
Proof.
  intros D. unfold str_opt. by_name m; cbv zeta; auto using debug_cmd_int, debug_io_frame, kb_frame.
  all: no_seti; reflexivity.
Qed.
Lemma opt_frame pw gr m line st k : m <> txt (name_of k) ->
  c_int (fst (do_option pw gr m line st)) k = c_int (fst st) k.
Proof.
  intros D. unfold do_option. destruct (int_opt m _ (fst st)) eqn:E; cbn [fst].
  - eapply int_frame; eauto.
  - apply str_frame; auto.
Qed.
Lemma doc_name n k e : In (n, k, e) doc -> n = name_of k.
Proof. cbn. intros D. repeat (destruct D as [D|D]; [injection D as <- <- _; reflexivity|]). contradiction D. Qed.
Lemma opt_value pw gr m line st n k e : In (n, k, e) doc ->
  c_int (fst (do_option pw gr m line st)) k =
  if same m (txt n) then match e (get_val_int line (snd st)) with Some w => w | None => c_int (fst st) k end
  else c_int (fst st) k.
Proof.
  intros D. destruct (same m (txt n)) eqn:S.
  2: { apply opt_frame. intros X. rewrite <- (doc_name n k e D) in X. apply same_iff in X. congruence. }
  apply same_iff in S. subst m. destruct st as [c old]. unfold do_option. cbn [snd fst].
  generalize (get_val_int line old). intros val.
  cbn in D. repeat (destruct D as [D|D]; [injection D as <- <- <-|]); try contradiction D.
  all: cbv [int_opt val_after eqs txt eqb_bytes N_of_ascii N_of_digits N.eqb Pos.eqb andb N.add N.mul Pos.add Pos.mul].
  all: cbn [fst].
  all: try (unfold every, yes; rewrite ?seti_at; rewrite ?seti_other by discriminate; rewrite ?seti_at; reflexivity).
  - unfold positive_only. rewrite Z.gtb_ltb. destruct (0 <? val)%Z; [apply seti_at|reflexivity].
  - unfold positive_only. rewrite Z.gtb_ltb. destruct (0 <? val)%Z; [apply seti_at|reflexivity].
  - unfold positive_only. rewrite Z.gtb_ltb. destruct (0 <? val)%Z; [apply seti_at|reflexivity].
  - unfold upto60. destruct (val <=? 60)%Z, (0 <=? val)%Z; reflexivity.
  - unfold yes60. destruct (val <=? 60)%Z, (0 <=? val)%Z; reflexivity.
  - unfold at_least_2, MIN_WORKERS. rewrite seti_at. destruct (val <? 2)%Z eqn:L; [apply Z.ltb_lt in L|apply Z.ltb_ge in L]; lia.
Qed.

(* from the lines to the file *)
Lemma file_fold {A} (P : com -> A) (f : A -> item -> A) (Q : item -> Prop) junk pw gr items c :
  (forall i st, item_ok i -> Q i -> P (fst (conf_line pw gr (body i ++ [10]) st)) = f (P (fst st)) i) ->
  Forall item_ok items -> Forall short items -> Forall Q items ->
  P (conf_read junk pw gr (text items) c) = fold_left f items (P c).
Proof.
  intros H O S Qs. unfold conf_read. rewrite loop_items; auto.
  change (P c) with (P (fst (c, junk))). generalize (c, junk). clear S.
  induction items as [|i items IH]; intros st; auto. cbn [fold_left].
  inversion_clear O. inversion_clear Qs. rewrite IH, H; auto.
Qed.

Theorem C80_numbers_partial : forall junk pw gr items c n k e,
  Forall item_ok items -> Forall short items -> Forall numeric items -> In (n, k, e) doc ->
  c_int (conf_read junk pw gr (text items) c) k = fold_left (becomes n e) items (c_int c k).
Proof.
  intros junk pw gr items c n k e O S Nu D.
  apply (file_fold (fun c => c_int c k) (becomes n e) numeric); auto.
  intros [t| |m a b v t|m a s] st Oi Ni.
  - rewrite line_note; auto.
  - rewrite line_blank; auto.
  - destruct (line_setting pw gr m a b v t st Oi) as (line & L & ->).
    rewrite (opt_value _ _ _ _ _ n k e D). cbn [becomes]. destruct (same m (txt n)) eqn:E; auto.
    apply same_iff in E. destruct Ni as (z & Hz & F); [exists n, k, e; auto|].
    unfold get_val_int. rewrite L, Hz, (atoi_numeral v z Hz F). reflexivity.
  - destruct (line_bare pw gr m a s st Oi) as (line & L & ->).
    rewrite (opt_value _ _ _ _ _ n k e D). cbn [becomes]. destruct (same m (txt n)) eqn:E; auto.
    apply same_iff in E. destruct Ni. exists n, k, e. auto.
Qed.

(* members no setting of the file changes stay; those of another setting too *)
Theorem C80_frame : forall junk pw gr items c k,
  Forall item_ok items -> Forall short items ->
  Forall (fun i => match i with Setting m _ _ _ _ | Bare m _ _ => m <> txt (name_of k) | _ => True end) items ->
  c_int (conf_read junk pw gr (text items) c) k = c_int c k.
Proof.
  intros junk pw gr items c k O S F.
  transitivity (fold_left (fun (v : Z) (_ : item) => v) items (c_int c k)).
  2: { clear. generalize (c_int c k). induction items; cbn; auto. }
  apply (file_fold (fun c => c_int c k) (fun v _ => v) _ junk pw gr items c) in F; auto.
  intros [t| |m a b v t|m a s] st Oi Ni.
  - rewrite line_note; auto.
  - rewrite line_blank; auto.
  - destruct (line_setting pw gr m a b v t st Oi) as (line & L & ->). apply opt_frame; auto.
  - destruct (line_bare pw gr m a s st Oi) as (line & L & ->). apply opt_frame; auto.
Qed.

(* ---------------- strings ---------------- *)
Lemma int_opt_rest m val c c' : int_opt m val c = Some c' ->
  is_number m /\ (forall k, c_str c' k = c_str c k) /\ c_cmds c' = c_cmds c.
Proof.
  unfold int_opt. by_name m; intros H; try discriminate H; injection H as <-;
  (split; [|try match goal with |- context [if ?b then _ else _] => destruct b end; split; reflexivity]).
  all: match goal with |- is_number (txt ?x) =>
    match eval cbv [doc] in doc with context [(x, ?k, ?e)] => exists x, k, e; split; [|reflexivity] end end.
  all: unfold doc; repeat (try (left; reflexivity); right).
Qed.
Lemma not_number s : forallb (fun d => negb (String.eqb s (fst (fst d)))) doc = true -> ~ is_number (txt s).
Proof.
  intros F (x & k & e & D & E). apply txt_inj in E. rewrite forallb_forall in F. specialize (F _ D). cbn in F.
  subst. rewrite String.eqb_refl in F. discriminate.
Qed.
Definition line_str (line : bytes) (d : bytes) : bytes := match scan2 line with Some v => v | None => d end.
Lemma skey_eqb_refl k : skey_beq k k = true.
Proof. destruct k; reflexivity. Qed.
Lemma max_sectors_str s c k : c_str (max_sectors_kb s c) k = c_str c k /\ c_cmds (max_sectors_kb s c) = c_cmds c.
Proof. unfold max_sectors_kb. repeat match goal with |- context [match ?b with _ => _ end] => destruct b end; split; reflexivity. Qed.
Lemma debug_io_str s c k : c_str (debug_io s c) k = c_str c k /\ c_cmds (debug_io s c) = c_cmds c.
Proof. unfold debug_io. do 2 destruct (strstr _ _); split; reflexivity. Qed.
Lemma debug_cmd_str s c k : c_str (debug_cmd s c) k = c_str c k.
Proof. unfold debug_cmd. repeat match goal with |- context [match ?b with _ => _ end] => destruct b end; reflexivity. Qed.
Lemma opt_str pw gr m line st n k f : In (n, k, f) str_doc ->
  c_str (fst (do_option pw gr m line st)) k =
  if same m (txt n) then Some (f (line_str line [])) else c_str (fst st) k.
Proof.
  intros D. unfold do_option. destruct (int_opt m _ (fst st)) as [c'|] eqn:E; cbn [fst].
  - apply int_opt_rest in E. destruct E as (Nm & Es & _). rewrite Es. destruct (same m (txt n)) eqn:S; auto.
    apply same_iff in S. subst m. exfalso. revert Nm. apply not_number.
    cbn in D. repeat (destruct D as [D|D]; [injection D as <- _ _; reflexivity|]). contradiction D.
  - clear E. destruct st as [c old]. cbn [fst]. unfold str_opt. by_name m.
    all: cbv zeta; cbn in D; repeat (destruct D as [D|D]; [injection D as <- <- <-|]); try contradiction D.
    all: rewrite ?same_txt; cbn [String.eqb Ascii.eqb Bool.eqb].
    all: rewrite ?(proj1 (debug_io_str _ _ _)), ?debug_cmd_str, ?(proj1 (max_sectors_str _ _ _)); try reflexivity.
    all: rewrite same_not by assumption; reflexivity.
Qed.
Theorem C80_strings_partial : forall junk pw gr items c n k f,
  Forall item_ok items -> Forall short items -> Forall (named ["uname"; "gname"; "our_host_name"]%string) items ->
  In (n, k, f) str_doc ->
  c_str (conf_read junk pw gr (text items) c) k = fold_left (becomes_str n f) items (c_str c k).
Proof.
  intros junk pw gr items c n k f O S Nu D.
  apply (file_fold (fun c => c_str c k) (becomes_str n f) (named ["uname"; "gname"; "our_host_name"]%string)); auto.
  intros [t| |m a b v t|m a s] st Oi Ni.
  - rewrite line_note; auto.
  - rewrite line_blank; auto.
  - destruct (line_setting pw gr m a b v t st Oi) as (line & L & ->).
    rewrite (opt_str _ _ _ _ _ n k f D). cbn [becomes_str]. unfold line_str. rewrite L. reflexivity.
  - destruct (line_bare pw gr m a s st Oi) as (line & L & ->).
    rewrite (opt_str _ _ _ _ _ n k f D). cbn [becomes_str]. destruct (same m (txt n)) eqn:E; auto.
    apply same_iff in E. destruct Ni. subst m. apply in_map. clear - D.
    cbn in D. repeat (destruct D as [D|D]; [injection D as <- _ _; cbn; tauto|]). contradiction D.
Qed.
Lemma opt_id pw gr m line st :
  c_int (fst (do_option pw gr m line st)) Uid =
    (if same m (txt "uname") then id_of pw (line_str line []) else c_int (fst st) Uid) /\
  c_int (fst (do_option pw gr m line st)) Gid =
    (if same m (txt "gname") then id_of gr (line_str line []) else c_int (fst st) Gid).
Proof.
  split.
  - destruct (same m (txt "uname")) eqn:E; [apply same_iff in E; subst m; reflexivity|].
    apply opt_frame. intros X. apply same_iff in X. cbn [name_of] in X. congruence.
  - destruct (same m (txt "gname")) eqn:E; [apply same_iff in E; subst m; reflexivity|].
    apply opt_frame. intros X. apply same_iff in X. cbn [name_of] in X. congruence.
Qed.
(* the uid and gid are those of the names *)
Theorem C80_ids_partial : forall junk pw gr items c,
  Forall item_ok items -> Forall short items -> Forall (named ["uname"; "gname"]%string) items ->
  c_int (conf_read junk pw gr (text items) c) Uid = fold_left (becomes_id "uname" pw) items (c_int c Uid) /\
  c_int (conf_read junk pw gr (text items) c) Gid = fold_left (becomes_id "gname" gr) items (c_int c Gid).
Proof.
  intros junk pw gr items c O S Nu. split.
  - apply (file_fold (fun c => c_int c Uid) (becomes_id "uname" pw) (named ["uname"; "gname"]%string)); auto.
    intros [t| |m a b v t|m a s] st Oi Ni.
    + rewrite line_note; auto.
    + rewrite line_blank; auto.
    + destruct (line_setting pw gr m a b v t st Oi) as (line & L & ->).
      rewrite (proj1 (opt_id _ _ _ _ _)). unfold line_str. rewrite L. reflexivity.
    + destruct (line_bare pw gr m a s st Oi) as (line & L & ->). rewrite (proj1 (opt_id _ _ _ _ _)). cbn [becomes_id].
      destruct (same m (txt "uname")) eqn:E; auto. apply same_iff in E. subst m. destruct Ni. cbn. tauto.
  - apply (file_fold (fun c => c_int c Gid) (becomes_id "gname" gr) (named ["uname"; "gname"]%string)); auto.
    intros [t| |m a b v t|m a s] st Oi Ni.
    + rewrite line_note; auto.
    + rewrite line_blank; auto.
    + destruct (line_setting pw gr m a b v t st Oi) as (line & L & ->).
      rewrite (proj2 (opt_id _ _ _ _ _)). unfold line_str. rewrite L. reflexivity.
    + destruct (line_bare pw gr m a s st Oi) as (line & L & ->). rewrite (proj2 (opt_id _ _ _ _ _)). cbn [becomes_id].
      destruct (same m (txt "gname")) eqn:E; auto. apply same_iff in E. subst m. destruct Ni. cbn. tauto.
Qed.

(* ---------------- debug commands ---------------- *)
Lemma cmd_num_of i w : nth_error commands i = Some w -> cmd_str_to_num (txt w) = N.of_nat i + 1.
Proof.
  intros H. assert (L : (i < 40)%nat) by (change 40%nat with (length commands); apply nth_error_Some; congruence).
  assert (A : forallb (fun j => match nth_error commands j with
                               | Some x => cmd_str_to_num (txt x) =? N.of_nat j + 1 | None => false end) (seq 0 40) = true)
    by (vm_compute; reflexivity).
  rewrite forallb_forall in A. specialize (A i). rewrite H in A. apply N.eqb_eq, A, in_seq. lia.
Qed.
Lemma cmd_known s : cmd_str_to_num s <> 0 -> exists i w, nth_error commands i = Some w /\ s = txt w.
Proof.
  intros H. cut (existsb (fun w => eqb_bytes s (txt w)) commands = true).
  { intros I. apply existsb_exists in I. destruct I as (w & I & E). apply eqb_bytes_iff in E.
    apply In_nth_error in I. destruct I as [i I]. eauto. }
  revert H. unfold cmd_str_to_num. by_name s; intros H; try congruence; vm_compute; reflexivity.
Qed.
Lemma flag_bit cmd b : N.testbit (debug_flag cmd) b = (cmd =? b).
Proof. unfold debug_flag. rewrite N.shiftl_1_l. apply N.pow2_bits_eqb. Qed.
Lemma all_bit b : b < 64 -> N.testbit ALL_CMDS b = true.
Proof. intros H. change ALL_CMDS with (N.ones 64). apply N.ones_spec_low. auto. Qed.
Lemma plus_txt w : txt ("+" ++ w) = 43 :: txt w.
Proof. reflexivity. Qed.
Lemma minus_txt w : txt ("-" ++ w) = 45 :: txt w.
Proof. reflexivity. Qed.
Lemma debug_cmd_bit v c b : (1 <= b < 64)%nat ->
  N.testbit (c_cmds (debug_cmd v c)) (N.of_nat b) =
  becomes_dbg b (N.testbit (c_cmds c) (N.of_nat b)) (Setting (txt "debug_cmd") [] [] v []).
Proof.
  intros Hb. cbn [becomes_dbg]. rewrite (proj2 (same_iff _ _) eq_refl). unfold debug_cmd.
  destruct (eqs v "+all") eqn:E1.
  { apply eqs_iff in E1. rewrite (proj2 (same_iff _ _) E1). cbn [c_cmds setc]. apply all_bit. lia. }
  apply eqs_not in E1. rewrite (same_not _ _ E1).
  destruct (eqs v "-all") eqn:E2.
  { apply eqs_iff in E2. rewrite (proj2 (same_iff _ _) E2). cbn [c_cmds setc]. apply N.bits_0. }
  apply eqs_not in E2. rewrite (same_not _ _ E2). cbv zeta.
  destruct (cmd_str_to_num (tl v) =? 0) eqn:Z0.
  { apply N.eqb_eq in Z0. destruct (nth_error commands (b - 1)) as [w|] eqn:W; auto.
    rewrite plus_txt, minus_txt. pose proof (cmd_num_of _ _ W) as X.
    rewrite !same_not; auto; intros ->; cbn [tl] in Z0; lia. }
  apply N.eqb_neq in Z0. destruct (cmd_known _ Z0) as (i & w & W & Ew). pose proof (cmd_num_of _ _ W) as X.
  destruct v as [|x v]; [cbn in Z0; congruence|]. cbn [tl] in *. subst v. rewrite X.
  destruct (Nat.eq_dec i (b - 1)) as [->|Ni].
  - rewrite W, plus_txt, minus_txt.
    destruct (x =? 43) eqn:P; [apply N.eqb_eq in P; subst x|].
    { rewrite (proj2 (same_iff _ _) eq_refl). cbn [c_cmds setc set_cmd_debug]. rewrite N.lor_spec, flag_bit.
      replace (N.of_nat (b - 1) + 1) with (N.of_nat b) by lia. rewrite N.eqb_refl. apply orb_true_r. }
    apply N.eqb_neq in P. rewrite same_not by congruence.
    destruct (x =? 45) eqn:M; [apply N.eqb_eq in M; subst x|].
    { rewrite (proj2 (same_iff _ _) eq_refl). cbn [c_cmds setc clear_cmd_debug]. rewrite N.land_spec, N.lxor_spec, flag_bit, all_bit by lia.
      replace (N.of_nat (b - 1) + 1) with (N.of_nat b) by lia. rewrite N.eqb_refl. apply andb_false_r. }
    apply N.eqb_neq in M. rewrite same_not by congruence. reflexivity.
  - assert (NE : N.of_nat i + 1 =? N.of_nat b = false) by (apply N.eqb_neq; lia).
    assert (R : match nth_error commands (b - 1) with
                | Some w0 => if same (x :: txt w) (txt ("+" ++ w0)) then true
                             else if same (x :: txt w) (txt ("-" ++ w0)) then false else N.testbit (c_cmds c) (N.of_nat b)
                | None => N.testbit (c_cmds c) (N.of_nat b) end = N.testbit (c_cmds c) (N.of_nat b)).
    { destruct (nth_error commands (b - 1)) as [w0|] eqn:W0; auto. rewrite plus_txt, minus_txt.
      assert (w <> w0). { intros <-. pose proof (cmd_num_of _ _ W0). lia. }
      rewrite !same_not; auto; intros Y; injection Y as _ Y; apply txt_inj in Y; auto. }
    rewrite R. destruct (x =? 43).
    { cbn [c_cmds setc set_cmd_debug]. rewrite N.lor_spec, flag_bit, NE. apply orb_false_r. }
    destruct (x =? 45); [|reflexivity].
    cbn [c_cmds setc clear_cmd_debug]. rewrite N.land_spec, N.lxor_spec, flag_bit, all_bit, NE by lia. apply andb_true_r.
Qed.
Lemma opt_cmds pw gr m line st :
  c_cmds (fst (do_option pw gr m line st)) =
  if same m (txt "debug_cmd") then c_cmds (debug_cmd (line_str line m) (fst st)) else c_cmds (fst st).
Proof.
  unfold do_option. destruct (int_opt m _ (fst st)) as [c'|] eqn:E; cbn [fst].
  - apply int_opt_rest in E. destruct E as (Nm & _ & Ec). rewrite Ec. destruct (same m (txt "debug_cmd")) eqn:S; auto.
    apply same_iff in S. subst m. exfalso. revert Nm. apply not_number. reflexivity.
  - clear E. unfold str_opt. by_name m; cbv zeta; rewrite ?same_txt; cbn [String.eqb Ascii.eqb Bool.eqb].
    all: rewrite ?(proj2 (debug_io_str _ _ Uname)), ?(proj2 (max_sectors_str _ _ Uname)); try reflexivity.
    rewrite same_not by assumption. reflexivity.
Qed.
Theorem C80_debug_cmds : forall junk pw gr items c b, (1 <= b < 64)%nat ->
  Forall item_ok items -> Forall short items ->
  N.testbit (c_cmds (conf_read junk pw gr (text items) c)) (N.of_nat b) =
  fold_left (becomes_dbg b) items (N.testbit (c_cmds c) (N.of_nat b)).
Proof.
  intros junk pw gr items c b Hb O S.
  apply (file_fold (fun c => N.testbit (c_cmds c) (N.of_nat b)) (becomes_dbg b) (fun _ => True)); auto.
  2: { clear. induction items; auto. }
  intros [t| |m a s v t|m a s] st Oi _.
  - rewrite line_note; auto.
  - rewrite line_blank; auto.
  - destruct (line_setting pw gr m a s v t st Oi) as (line & L & ->). rewrite opt_cmds. unfold line_str. rewrite L.
    destruct (same m (txt "debug_cmd")) eqn:E.
    + rewrite (debug_cmd_bit v (fst st) b Hb). apply same_iff in E. subst m. reflexivity.
    + cbn [becomes_dbg]. rewrite E. reflexivity.
  - destruct (line_bare pw gr m a s st Oi) as (line & L & ->). rewrite opt_cmds. unfold line_str. rewrite L.
    cbn [becomes_dbg]. destruct (same m (txt "debug_cmd")) eqn:E; auto. apply same_iff in E. subst m. reflexivity.
Qed.

(* ---------------- max_sectors_kb ---------------- *)
Lemma starts_iff p : forall s, starts p s = true <-> exists b, s = p ++ b.
Proof.
  induction p as [|x p IH]; intros s; cbn.
  - split; eauto.
  - destruct s as [|y s]; [split; [discriminate|intros [b E]; discriminate]|].
    rewrite andb_true_iff, N.eqb_eq, IH. split.
    + intros (-> & b & ->). eauto.
    + intros (b & E). injection E as -> ->. eauto.
Qed.
Lemma strstr_iff p : forall s, strstr s p = true <-> contains s p.
Proof.
  induction s as [|x s IH]; cbn [strstr]; rewrite orb_true_iff, starts_iff.
  - split; [intros [[b E]|E]; [exists [], b; auto|discriminate]|].
    intros (a & b & E). destruct a; [left; exists b; auto|discriminate].
  - rewrite IH. split.
    + intros [[b E]|(a & b & ->)]; [exists [], b; auto|exists (x :: a), b; auto].
    + intros ([|y a] & b & E); [left; exists b; auto|right]. injection E as -> ->. exists a, b. auto.
Qed.
Lemma digit_vals_all s : forall n z, digit_vals s n = Some z -> Forall (fun x => 48 <= x <= 57) s.
Proof.
  induction s as [|x s IH]; cbn [digit_vals]; intros n z H; constructor.
  - exact (digit_first x s z n H).
  - destruct ((48 <=? x) && (x <=? 57)); [eauto|discriminate].
Qed.
Lemma no_word v p : Forall (fun x => 48 <= x <= 57) v -> Forall (fun x => 57 < x) p -> p <> [] -> strstr v p = false.
Proof.
  intros V P N0. destruct (strstr v p) eqn:E; auto. apply strstr_iff in E. destruct E as (a & b & ->).
  apply Forall_app in V. destruct V as [_ V]. apply Forall_app in V. destruct V as [V _].
  destruct p; [congruence|]. inversion_clear V. inversion_clear P. lia.
Qed.
Lemma kb_value v c : (v = txt "ignore" \/ v = txt "align" \/
    exists z x r, numeral v = Some z /\ (0 <= z < 2 ^ 31)%Z /\ v = x :: r /\ x <> 43 /\ x <> 45) ->
  kb (max_sectors_kb v c) = becomes_kb (kb c) (Setting (txt "max_sectors_kb") [] [] v []).
Proof.
  intros [->|[->|(z & x & r & Hz & Hr & Ev & N1 & N2)]]; [reflexivity|reflexivity|].
  assert (A : atoi v = z) by (apply atoi_numeral; auto; unfold fits_int; lia).
  assert (D : Forall (fun x => 48 <= x <= 57) v).
  { rewrite Ev in Hz |- *. cbn [numeral] in Hz. apply N.eqb_neq in N1, N2. rewrite N1, N2 in Hz.
    eapply digit_vals_all; eauto. }
  cbn [becomes_kb]. rewrite (proj2 (same_iff _ _) eq_refl), Hz.
  assert (V0 : v <> txt "ignore") by (intros ->; inversion_clear D; lia).
  assert (V1 : v <> txt "align") by (intros ->; inversion_clear D; lia).
  rewrite !same_not by assumption. unfold max_sectors_kb.
  rewrite (no_word v (txt "ignore")), (no_word v (txt "align")); auto; try discriminate; try (cbn; repeat constructor; lia).
  rewrite Ev. inversion D as [E|y l Hx Hl E]; [congruence|]. rewrite Ev in E. injection E as -> ->.
  rewrite <- Ev. replace ((48 <=? x) && (x <=? 57)) with true by (symmetry; apply andb_true_iff; rewrite !N.leb_le; lia).
  cbv zeta. rewrite A.
  assert (X : ((z =? 0) || negb (Z.rem z 2 =? 0) || (8192 <? z))%Z = negb ((2 <=? z) && (z <=? 8192) && Z.even z)%Z).
  { assert (Q : (Z.rem z 2 =? 0)%Z = Z.even z).
    { rewrite Z.rem_mod_nonneg, Zmod_even by lia. destruct (Z.even z); reflexivity. }
    rewrite Q. destruct (Z.even z) eqn:Ez.
    - rewrite andb_true_r, orb_false_r.
      destruct (Z.eqb_spec z 0), (Z.ltb_spec 8192 z), (Z.leb_spec 2 z), (Z.leb_spec z 8192); try reflexivity; try lia; exfalso;
      assert (z = 1)%Z by lia; subst z; discriminate Ez.
    - rewrite andb_false_r, orb_true_r. reflexivity. }
  rewrite X. destruct ((2 <=? z) && (z <=? 8192) && Z.even z)%Z; reflexivity.
Qed.
Lemma opt_kb pw gr m line st :
  kb (fst (do_option pw gr m line st)) =
  if same m (txt "max_sectors_kb") then kb (max_sectors_kb (line_str line []) (fst st)) else kb (fst st).
Proof.
  destruct (same m (txt "max_sectors_kb")) eqn:E.
  - apply same_iff in E. subst m. reflexivity.
  - unfold kb. rewrite !opt_frame; auto; intros X; apply same_iff in X; cbn [name_of] in X; congruence.
Qed.
Theorem C80_max_sectors_partial : forall junk pw gr items c,
  Forall item_ok items -> Forall short items -> Forall kb_plain items ->
  kb (conf_read junk pw gr (text items) c) = fold_left becomes_kb items (kb c).
Proof.
  intros junk pw gr items c O S K. apply (file_fold kb becomes_kb kb_plain); auto.
  intros [t| |m a s v t|m a s] st Oi Ki.
  - rewrite line_note; auto.
  - rewrite line_blank; auto.
  - destruct (line_setting pw gr m a s v t st Oi) as (line & L & ->). rewrite opt_kb. unfold line_str. rewrite L.
    destruct (same m (txt "max_sectors_kb")) eqn:E.
    + apply same_iff in E. rewrite (kb_value v (fst st) (Ki E)). subst m. reflexivity.
    + cbn [becomes_kb]. rewrite E. reflexivity.
  - destruct (line_bare pw gr m a s st Oi) as (line & L & ->). rewrite opt_kb. unfold line_str. rewrite L.
    cbn [becomes_kb]. destruct (same m (txt "max_sectors_kb")) eqn:E; reflexivity.
Qed.

(* ---------------- debug_io ---------------- *)
Definition becomes_io (w : string) (v : Z) (i : item) : Z :=
  match i with
  | Setting m _ _ value _ => if same m (txt "debug_io") && strstr value (txt w) then 1%Z else v
  | _ => v
  end.
Lemma io_asks w items : forall v, (fold_left (becomes_io w) items v = if existsb (fun i => (becomes_io w 0 i =? 1)%Z) items then 1 else v)%Z.
Proof.
  induction items as [|i items IH]; intros v; auto. cbn [fold_left existsb]. rewrite IH.
  destruct i as [t| |m a s u t|m a s]; cbn [becomes_io]; try reflexivity.
  destruct (same m (txt "debug_io") && strstr u (txt w)); cbn; auto. destruct (existsb _ _); reflexivity.
Qed.
Lemma io_asks_iff w i : (becomes_io w 0 i =? 1)%Z = true <-> asks w i.
Proof.
  destruct i as [t| |m a s u t|m a s]; cbn [becomes_io asks]; try (split; [discriminate|tauto]).
  rewrite <- strstr_iff, <- same_iff. destruct (same m (txt "debug_io")), (strstr u (txt w)); cbn; intuition discriminate.
Qed.
Lemma opt_io pw gr m line st :
  c_int (fst (do_option pw gr m line st)) IoSubmit =
    (if same m (txt "debug_io") && strstr (line_str line []) (txt "submit") then 1%Z else c_int (fst st) IoSubmit) /\
  c_int (fst (do_option pw gr m line st)) IoComplete =
    (if same m (txt "debug_io") && strstr (line_str line []) (txt "complete") then 1%Z else c_int (fst st) IoComplete).
Proof.
  destruct (same m (txt "debug_io")) eqn:E.
  - apply same_iff in E. subst m. cbn [andb].
    change (fst (do_option pw gr (txt "debug_io") line st)) with (debug_io (line_str line []) (fst st)).
    unfold debug_io. destruct (strstr _ (txt "submit")), (strstr _ (txt "complete")); split; reflexivity.
  - rewrite !opt_frame; auto; intros X; apply same_iff in X; cbn [name_of] in X; congruence.
Qed.
Theorem C80_debug_io : forall junk pw gr items c, Forall item_ok items -> Forall short items ->
  (Exists (asks "submit") items -> c_int (conf_read junk pw gr (text items) c) IoSubmit = 1%Z) /\
  (~ Exists (asks "submit") items -> c_int (conf_read junk pw gr (text items) c) IoSubmit = c_int c IoSubmit) /\
  (Exists (asks "complete") items -> c_int (conf_read junk pw gr (text items) c) IoComplete = 1%Z) /\
  (~ Exists (asks "complete") items -> c_int (conf_read junk pw gr (text items) c) IoComplete = c_int c IoComplete).
Proof.
  intros junk pw gr items c O S.
  assert (T : Forall (fun _ : item => True) items) by (clear; induction items; auto).
  assert (X : forall w, (existsb (fun i => (becomes_io w 0 i =? 1)%Z) items = true <-> Exists (asks w) items)).
  { intros w. rewrite existsb_exists, Exists_exists. split; intros (i & I & J); exists i; (split; [auto|]); apply io_asks_iff; auto. }
  assert (A : c_int (conf_read junk pw gr (text items) c) IoSubmit = fold_left (becomes_io "submit") items (c_int c IoSubmit)).
  { apply (file_fold (fun c => c_int c IoSubmit) (becomes_io "submit") (fun _ => True)); auto.
    intros [t| |m a s v t|m a s] st Oi _; [rewrite line_note; auto|rewrite line_blank; auto| |].
    - destruct (line_setting pw gr m a s v t st Oi) as (line & L & ->). rewrite (proj1 (opt_io _ _ _ _ _)). unfold line_str. rewrite L. reflexivity.
    - destruct (line_bare pw gr m a s st Oi) as (line & L & ->). rewrite (proj1 (opt_io _ _ _ _ _)). unfold line_str. rewrite L.
      rewrite andb_false_r. reflexivity. }
  assert (B : c_int (conf_read junk pw gr (text items) c) IoComplete = fold_left (becomes_io "complete") items (c_int c IoComplete)).
  { apply (file_fold (fun c => c_int c IoComplete) (becomes_io "complete") (fun _ => True)); auto.
    intros [t| |m a s v t|m a s] st Oi _; [rewrite line_note; auto|rewrite line_blank; auto| |].
    - destruct (line_setting pw gr m a s v t st Oi) as (line & L & ->). rewrite (proj2 (opt_io _ _ _ _ _)). unfold line_str. rewrite L. reflexivity.
    - destruct (line_bare pw gr m a s st Oi) as (line & L & ->). rewrite (proj2 (opt_io _ _ _ _ _)). unfold line_str. rewrite L.
      rewrite andb_false_r. reflexivity. }
  rewrite A, B, !io_asks. pose proof (X "submit"%string) as X1. pose proof (X "complete"%string) as X2.
  destruct (existsb _ items), (existsb _ items); intuition discriminate.
Qed.

(* ---------------- any file ---------------- *)
(* the pieces the file is read in *)
Fixpoint pieces (fuel : nat) (s : bytes) : list bytes :=
  match fuel, s with
  | S f, _ :: _ => let '(l, r) := fgets 127 s in l :: pieces f r
  | _, _ => []
  end.
Lemma loop_pieces pw gr : forall fuel s st,
  conf_loop fuel pw gr s st = fold_left (fun st l => conf_line pw gr l st) (pieces fuel s) st.
Proof.
  induction fuel as [|f IH]; intros s st; [reflexivity|]. destruct s as [|x s]; [reflexivity|].
  change (conf_loop (S f) pw gr (x :: s) st) with
    (let '(l, r) := fgets (MAX_CONF_LINE - 1) (x :: s) in conf_loop f pw gr r (conf_line pw gr l st)).
  change (pieces (S f) (x :: s)) with (let '(l, r) := fgets 127 (x :: s) in l :: pieces f r).
  rewrite max_val. destruct (fgets 127 (x :: s)) as [l r]. cbn [fold_left]. apply IH.
Qed.
Lemma pieces_all : forall fuel s, (length s <= fuel)%nat -> concat (pieces fuel s) = s.
Proof.
  induction fuel as [|f IH]; intros [|x s] L; cbn [length] in L; try reflexivity; try lia.
  change (pieces (S f) (x :: s)) with (let '(l, r) := fgets 127 (x :: s) in l :: pieces f r).
  pose proof (fgets_spec 127 (x :: s)) as F. destruct (fgets 127 (x :: s)) as [l r]. destruct F as (E & _ & NN).
  cbn [concat]. rewrite IH; auto.
  assert (l <> []) by (apply NN; discriminate). destruct l; [congruence|].
  apply (f_equal (@length N)) in E. cbn in E. rewrite app_length in E. lia.
Qed.
Lemma pieces_len : forall fuel s l, In l (pieces fuel s) -> (length l <= 127)%nat.
Proof.
  induction fuel as [|f IH]; intros [|x s] l; try (intros []; fail).
  change (pieces (S f) (x :: s)) with (let '(l, r) := fgets 127 (x :: s) in l :: pieces f r).
  pose proof (fgets_spec 127 (x :: s)) as F. destruct (fgets 127 (x :: s)) as [l' r]. destruct F as (_ & L & _).
  intros [<-|I]; eauto.
Qed.

(* nothing is written behind the end of line[128], str[128], key[128] and val[128], nor of our_host_name[49] *)
Theorem C80_fits : forall s l, In l (pieces (length s) s) ->
  (length l < 128 /\ length (word (upto_nul l)) < 128 /\ length (scan_key (upto_nul l)) < 128 /\
   length (scan_val (upto_nul l)) < 128)%nat.
Proof.
  intros s l I. apply pieces_len in I. pose proof (upto_nul_len l).
  split; [lia|]. split; [|split].
  - unfold word. pose proof (take_while_len word_char (upto_nul l)). lia.
  - unfold scan_key. pose proof (take_while_len not_eq_sign (upto_nul l)). lia.
  - unfold scan_val. pose proof (drop_while_len not_eq_sign (upto_nul l)) as D.
    destruct (drop_while not_eq_sign (upto_nul l)) as [|y r]; cbn [length] in *; [lia|].
    pose proof (take_while_len (fun x => negb (is_space x)) (skip_space r)). pose proof (skip_space_len r). lia.
Qed.
Definition host_fits (c : com) : Prop := match c_str c OurHostName with Some h => (length h <= 48)%nat | None => True end.
Lemma line_do pw gr l st : conf_line pw gr l st = st \/
  conf_line pw gr l st = do_option pw gr (word (upto_nul l)) (upto_nul l) st.
Proof.
  unfold conf_line. destruct st as [c val]. destruct (match upto_nul l with [] => false | x :: _ => _ end); [left|right]; reflexivity.
Qed.
Theorem C80_host_fits : forall junk pw gr s c, host_fits c -> host_fits (conf_read junk pw gr s c).
Proof.
  intros junk pw gr s c H. unfold conf_read. rewrite loop_pieces.
  assert (H' : host_fits (fst (c, junk))) by exact H. revert H'. generalize (c, junk). clear H.
  induction (pieces (length s) s) as [|l ls IH]; intros st H; auto. cbn [fold_left]. apply IH.
  destruct (line_do pw gr l st) as [->| ->]; auto. unfold host_fits.
  rewrite (opt_str _ _ _ _ _ "our_host_name" OurHostName (firstn 48)); [|cbn; tauto].
  destruct (same _ _); [rewrite firstn_length; lia|exact H].
Qed.

(* a name that is not in the text changes nothing, whatever else the file contains *)
Lemma word_in l : forall s, (exists a b, s = a ++ l ++ b) -> contains s (word (upto_nul l)).
Proof.
  intros s (a & b & ->). assert (P : exists d, upto_nul l = word (upto_nul l) ++ d).
  { unfold word. induction (upto_nul l) as [|x t (d & E)]; [exists []; auto|]. cbn. destruct (word_char x); [|exists (x :: t); auto].
    exists d. cbn. congruence. }
  assert (U : exists d, l = upto_nul l ++ d).
  { clear. induction l as [|x t (d & E)]; [exists []; auto|]. cbn. destruct (x =? 0); [exists (x :: t); auto|exists d; cbn; congruence]. }
  destruct P as (d & E), U as (d' & E'). exists a, (d ++ d' ++ b). rewrite E' at 1. rewrite E at 1. rewrite <- !app_assoc. reflexivity.
Qed.
Lemma piece_in (l : bytes) (ls : list bytes) : In l ls -> exists a b, concat ls = a ++ l ++ b.
Proof.
  induction ls as [|x ls IH]; intros []; cbn.
  - subst. exists [], (concat ls). auto.
  - destruct (IH H) as (a & b & E). exists (x ++ a), b. rewrite E, <- !app_assoc. auto.
Qed.
Theorem C80_not_named : forall junk pw gr s c k, ~ contains s (txt (name_of k)) ->
  c_int (conf_read junk pw gr s c) k = c_int c k.
Proof.
  intros junk pw gr s c k H. unfold conf_read. rewrite loop_pieces.
  assert (A : forall l, In l (pieces (length s) s) -> word (upto_nul l) <> txt (name_of k)).
  { intros l I E. apply H. rewrite <- E. apply word_in.
    destruct (piece_in _ _ I) as (a & b & Q). rewrite pieces_all in Q by lia. eauto. }
  clear H. change (c_int c k) with (c_int (fst (c, junk)) k). generalize (c, junk).
  induction (pieces (length s) s) as [|l ls IH]; intros st; auto. cbn [fold_left].
  rewrite IH; [|intros x I; apply A; right; auto].
  destruct (line_do pw gr l st) as [->| ->]; auto. apply opt_frame. apply A. left. auto.
Qed.

(* the newline of the last line may be missing *)
Lemma take_while_snoc f s x : f x = false -> take_while f (s ++ [x]) = take_while f s.
Proof. intros H. induction s; cbn; [rewrite H|rewrite IHs]; auto. Qed.
Lemma skip_space_nl s : skip_space (s ++ [10]) = skip_space s ++ [10] \/ (skip_space (s ++ [10]) = [] /\ skip_space s = []).
Proof. induction s as [|x s IH]; cbn; auto. destruct (is_space x); auto. Qed.
Lemma scan_val_nl s : scan_val (s ++ [10]) = scan_val s.
Proof.
  unfold scan_val.
  assert (D : drop_while not_eq_sign (s ++ [10]) = match drop_while not_eq_sign s with [] => [] | d => d ++ [10] end).
  { induction s as [|x s IH]; cbn; auto. destruct (not_eq_sign x); auto. }
  rewrite D. destruct (drop_while not_eq_sign s) as [|y r]; auto. cbn [app].
  destruct (skip_space_nl r) as [E|[E E']]; rewrite E; [apply take_while_snoc; auto|rewrite E'; auto].
Qed.
Lemma scan2_nl s : s <> [] -> scan2 (s ++ [10]) = scan2 s.
Proof.
  intros N0. unfold scan2. rewrite scan_val_nl. destruct s as [|x s]; [congruence|]. unfold scan_key. cbn.
  destruct (not_eq_sign x); reflexivity.
Qed.
Lemma upto_nul_app s r : upto_nul (s ++ r) = if existsb (N.eqb 0) s then upto_nul s else s ++ upto_nul r.
Proof.
  induction s as [|x s IH]; cbn [app upto_nul existsb]; auto. rewrite IH, (N.eqb_sym 0 x). destruct (x =? 0); auto.
  cbn. destruct (existsb (N.eqb 0) s); auto.
Qed.
Lemma upto_nul_none s : existsb (N.eqb 0) s = false -> upto_nul s = s.
Proof. intros H. pose proof (upto_nul_app s []) as X. rewrite H, app_nil_r in X. cbn in X. rewrite app_nil_r in X. auto. Qed.
Lemma line_nl pw gr l st : l <> [] -> conf_line pw gr (l ++ [10]) st = conf_line pw gr l st.
Proof.
  intros N0. unfold conf_line. rewrite upto_nul_app. destruct (existsb (N.eqb 0) l) eqn:E; auto.
  rewrite (upto_nul_none l E). change (upto_nul [10]) with [10]. destruct st as [c val].
  destruct l as [|x l]; [congruence|]. cbn [app]. destruct ((x =? 35) || (x =? 10)); [reflexivity|].
  change (x :: l ++ [10]) with ((x :: l) ++ [10]). unfold word. rewrite take_while_snoc by reflexivity. cbv zeta.
  unfold get_val_int. rewrite scan2_nl by discriminate. destruct (int_opt _ _ c); [reflexivity|].
  unfold str_opt, get_val_str. rewrite scan2_nl by discriminate. reflexivity.
Qed.
Lemma loop_app pw gr items i : forall fuel st, Forall item_ok items -> Forall short items -> item_ok i -> short i ->
  (length (text items ++ body i) <= fuel)%nat ->
  conf_loop fuel pw gr (text items ++ body i) st =
  fold_left (fun st i => conf_line pw gr (body i ++ [10]) st) (items ++ [i]) st.
Proof.
  induction items as [|j items IH]; intros fuel st O S Oi Si L.
  - cbn [text map concat app fold_left] in *. destruct (body i) as [|x b] eqn:B; [destruct fuel; destruct st; reflexivity|].
    rewrite line_nl by discriminate. destruct fuel as [|fuel]; [cbn in L; lia|].
    change (conf_loop (Datatypes.S fuel) pw gr (x :: b) st) with
      (let '(l, r) := fgets (MAX_CONF_LINE - 1) (x :: b) in conf_loop fuel pw gr r (conf_line pw gr l st)).
    rewrite fgets_end; [destruct fuel; reflexivity|rewrite <- B; apply item_no_nl; auto|].
    rewrite max_val. unfold short in Si. rewrite B in Si. lia.
  - inversion_clear O as [|? ? Oj Os]. inversion_clear S as [|? ? Sj Ss].
    cbn [text map concat] in *. fold (text items) in *. rewrite <- !app_assoc in *. cbn [app] in *.
    assert (L' : (length (body j) + Datatypes.S (length (text items ++ body i)) <= fuel)%nat)
      by (rewrite app_length in L; cbn [length] in L; exact L).
    destruct fuel as [|fuel]; [lia|].
    assert (E : conf_loop (Datatypes.S fuel) pw gr (body j ++ 10 :: text items ++ body i) st =
                let '(l, r) := fgets (MAX_CONF_LINE - 1) (body j ++ 10 :: text items ++ body i) in
                conf_loop fuel pw gr r (conf_line pw gr l st)) by (destruct (body j); reflexivity).
    rewrite E, fgets_line; [|apply item_no_nl; auto|rewrite max_val; unfold short in Sj; lia].
    cbn [fold_left]. apply IH; auto. lia.
Qed.
Theorem C80_last_line : forall junk pw gr items i c, Forall item_ok (items ++ [i]) -> Forall short (items ++ [i]) ->
  conf_read junk pw gr (text items ++ body i) c = conf_read junk pw gr (text (items ++ [i])) c.
Proof.
  intros junk pw gr items i c O S. unfold conf_read. rewrite loop_items by auto.
  apply Forall_app in O, S. destruct O as [O1 O2], S as [S1 S2]. inversion_clear O2. inversion_clear S2.
  rewrite loop_app; auto.
Qed.

(* ---------------- command line ---------------- *)
Definition letter_of (k : ikey) : string :=
  match k with
  | QuietFail => "Q" | DebugRenew => "R" | HistorySize => "H" | LogfilePriority => "L" | SyslogPriority => "S"
  | AioArg => "a" | MaxWorkers => "t" | UseWatchdog => "w" | HighPriority => "h" | MlockLevel => "l"
  | IoTimeout => "o" | KillGrace | KillGraceSet => "g" | Uid => "U" | Gid => "G" | _ => ""
  end%string.
Ltac by_letter ch :=
  unfold chr;
  repeat match goal with
  | |- context [eqs [ch] ?s] =>
    let E := fresh "E" in destruct (eqs [ch] s) eqn:E; [apply eqs_iff in E; injection E as E; subst ch|apply eqs_not in E]
  end.
Ltac no_seto :=
  repeat match goal with
  | H : ?m <> txt (letter_of ?k) |- context [c_int (seti ?q ?v ?c) ?k] =>
    rewrite (seti_other q v c k); [|intros ->; apply H; reflexivity]
  end.
Lemma cl_frame pw gr ch a c c' k : opt pw gr ch a c = OGo c' -> [ch] <> txt (letter_of k) -> c_int c' k = c_int c k.
Proof.
  intros H D. revert H. unfold opt. by_letter ch; intros H; try discriminate H.
  all: try (injection H as <-; try match goal with |- c_int (if ?b then _ else _) _ = _ => destruct b end; no_seto; reflexivity).
  destruct (known_other ch); [injection H as <-; reflexivity|discriminate H].
Qed.
Lemma cl_value pw gr ch a c c' s k e : In (s, k, e) opt_doc -> opt pw gr ch a c = OGo c' ->
  c_int c' k = if same [ch] (txt s) then match e (atoi a) with Some w => w | None => c_int c k end else c_int c k.
Proof.
  intros D H. assert (Es : s = letter_of k).
  { clear H. cbn in D. repeat (destruct D as [D|D]; [injection D as <- <- _; reflexivity|]). contradiction D. }
  destruct (same [ch] (txt s)) eqn:Sm.
  2: { eapply cl_frame; eauto. intros X. rewrite <- Es in X. apply same_iff in X. congruence. }
  apply same_iff in Sm. unfold opt in H.
  cbn in D. repeat (destruct D as [D|D]; [injection D as <- <- <-|]); try contradiction D.
  all: injection Sm as ->;
    cbv [chr eqs txt eqb_bytes N_of_ascii N_of_digits N.eqb Pos.eqb andb N.add N.mul Pos.add Pos.mul] in H;
    injection H as <-.
  all: try (rewrite seti_at; reflexivity).
  - rewrite seti_at. unfold at_least_2, MIN_WORKERS. destruct (atoi a <? 2)%Z eqn:L; [apply Z.ltb_lt in L|apply Z.ltb_ge in L]; lia.
  - unfold positive_only. rewrite Z.gtb_ltb. destruct (0 <? atoi a)%Z; [apply seti_at|reflexivity].
  - unfold upto60. destruct (atoi a <=? 60)%Z, (0 <=? atoi a)%Z; reflexivity.
  - unfold yes60. destruct (atoi a <=? 60)%Z, (0 <=? atoi a)%Z; reflexivity.
Qed.
Lemma cl_go pw gr ch a c : In ch letters -> exists c', opt pw gr ch a c = OGo c'.
Proof.
  cbn. intros D. repeat (destruct D as [<-|D]; [eexists; unfold opt;
    cbv [chr eqs txt eqb_bytes N_of_ascii N_of_digits N.eqb Pos.eqb andb N.add N.mul Pos.add Pos.mul known_other existsb orb]; reflexivity|]).
  contradiction D.
Qed.
Lemma letter_not_D ch : In ch letters -> chr ch "D" = false.
Proof. cbn. intros D. repeat (destruct D as [<-|D]; [reflexivity|]). contradiction D. Qed.
(* settings of the command line that are strings *)
Definition opt_str_doc : list (string * skey * (bytes -> bytes)) :=
  [ ("e", OurHostName, firstn 48); ("U", Uname, fun s => s); ("G", Gname, fun s => s) ]%string.
Definition becomes_opt_str (ch : string) (f : bytes -> bytes) (v : option bytes) (p : N * bytes) : option bytes :=
  if same [fst p] (txt ch) then Some (f (snd p)) else v.
Definition becomes_opt_id (ch : string) (db : bytes -> option Z) (v : Z) (p : N * bytes) : Z :=
  if same [fst p] (txt ch) then match db (snd p) with Some x => x | None => 0%Z end else v.
Lemma cl_str pw gr ch a c c' s k f : In (s, k, f) opt_str_doc -> opt pw gr ch a c = OGo c' ->
  c_str c' k = becomes_opt_str s f (c_str c k) (ch, a).
Proof.
  intros D H. unfold becomes_opt_str. cbn [fst snd]. revert H. unfold opt. by_letter ch; intros H; try discriminate H.
  all: try (destruct (known_other ch); [|discriminate H]).
  all: injection H as <-; try match goal with |- c_str (if ?b then _ else _) _ = _ => destruct b end.
  all: cbn in D; repeat (destruct D as [D|D]; [injection D as <- <- <-|]); try contradiction D; try reflexivity.
  all: rewrite same_not by assumption; reflexivity.
Qed.
Lemma cl_id pw gr ch a c c' : opt pw gr ch a c = OGo c' ->
  c_int c' Uid = becomes_opt_id "U" pw (c_int c Uid) (ch, a) /\
  c_int c' Gid = becomes_opt_id "G" gr (c_int c Gid) (ch, a).
Proof.
  intros H. unfold becomes_opt_id. cbn [fst snd]. split.
  - destruct (same [ch] (txt "U")) eqn:E; [apply same_iff in E; injection E as ->; injection H as <-; reflexivity|].
    eapply cl_frame; eauto. intros X. apply same_iff in X. cbn [letter_of] in X. congruence.
  - destruct (same [ch] (txt "G")) eqn:E; [apply same_iff in E; injection E as ->; injection H as <-; reflexivity|].
    eapply cl_frame; eauto. intros X. apply same_iff in X. cbn [letter_of] in X. congruence.
Qed.
Lemma cl_all pw gr l : forall c, Forall (fun p => In (fst p) letters) l ->
  exists c', options pw gr (cmdline l) c = Some c' /\
  (forall s k e, In (s, k, e) opt_doc -> Forall opt_numeric l -> c_int c' k = fold_left (becomes_opt s e) l (c_int c k)) /\
  (forall s k f, In (s, k, f) opt_str_doc -> c_str c' k = fold_left (becomes_opt_str s f) l (c_str c k)) /\
  c_int c' Uid = fold_left (becomes_opt_id "U" pw) l (c_int c Uid) /\
  c_int c' Gid = fold_left (becomes_opt_id "G" gr) l (c_int c Gid) /\
  (forall k, Forall (fun p => [fst p] <> txt (letter_of k)) l -> c_int c' k = c_int c k).
Proof.
  induction l as [|[ch a] l IH]; intros c F; [exists c; split; [reflexivity|]; split; [reflexivity|]; split; [reflexivity|]; auto|].
  inversion_clear F as [|? ? Fx Fl]. cbn [fst] in Fx.
  destruct (cl_go pw gr ch a c Fx) as [c1 H1]. destruct (IH c1 Fl) as (c' & H2 & Hn & Hs & Hu & Hg & Hf). exists c'. split; [|split; [|split; [|split; [|split]]]].
  - change (options pw gr (cmdline ((ch, a) :: l)) c) with
      (if chr ch "D" then options pw gr (a :: cmdline l) (seti Debug 1 c)
       else match opt pw gr ch a c with OGo c' => options pw gr (cmdline l) c' | OStop c' => Some c' | OExit => None end).
    rewrite letter_not_D by auto. rewrite H1. exact H2.
  - intros s k e D Nu. inversion_clear Nu as [|? ? Nx Nl]. rewrite (Hn s k e D Nl). cbn [fold_left]. f_equal.
    rewrite (cl_value pw gr ch a c c1 s k e D H1). unfold becomes_opt. cbn [fst snd]. destruct (same [ch] (txt s)) eqn:E; auto.
    apply same_iff in E. destruct Nx as (z & Hz & Fz); [exists s, k, e; auto|]. cbn [snd] in Hz.
    rewrite Hz, (atoi_numeral a z Hz Fz). reflexivity.
  - intros s k f D. rewrite (Hs s k f D). cbn [fold_left]. f_equal. eapply cl_str; eauto.
  - rewrite Hu. cbn [fold_left]. f_equal. eapply (proj1 (cl_id pw gr ch a c c1 H1)).
  - rewrite Hg. cbn [fold_left]. f_equal. eapply (proj2 (cl_id pw gr ch a c c1 H1)).
  - intros k Fk. inversion_clear Fk as [|? ? Kx Kl]. rewrite (Hf k Kl). eapply cl_frame; eauto.
Qed.
(* the command line decides over the file, and the file over the defaults *)
Theorem C80_options_partial : forall junk pw gr file l, Forall (fun p => In (fst p) letters) l -> Forall opt_numeric l ->
  exists c, settings junk pw gr file (cmdline l) = Some c /\
  (forall s k e, In (s, k, e) opt_doc ->
   c_int c k = fold_left (becomes_opt s e) l (c_int (read_config_file junk pw gr file (defaults pw gr)) k)) /\
  (forall s k f, In (s, k, f) opt_str_doc ->
   c_str c k = fold_left (becomes_opt_str s f) l (c_str (read_config_file junk pw gr file (defaults pw gr)) k)) /\
  c_int c Uid = fold_left (becomes_opt_id "U" pw) l (c_int (read_config_file junk pw gr file (defaults pw gr)) Uid) /\
  c_int c Gid = fold_left (becomes_opt_id "G" gr) l (c_int (read_config_file junk pw gr file (defaults pw gr)) Gid) /\
  (forall k, Forall (fun p => [fst p] <> txt (letter_of k)) l ->
   c_int c k = c_int (read_config_file junk pw gr file (defaults pw gr)) k).
Proof.
  intros junk pw gr file l F Nu. unfold settings.
  destruct (cl_all pw gr l (read_config_file junk pw gr file (defaults pw gr)) F) as (c & H & Hn & R).
  exists c. split; [exact H|]. split; [intros s k e D; apply Hn; auto|exact R].
Qed.
Theorem C80_command_line_wins : forall junk junk' pw gr file file' l s k e z w,
  Forall (fun p => In (fst p) letters) l -> Forall opt_numeric l -> In (s, k, e) opt_doc ->
  (exists p, In p l /\ [fst p] = txt s /\ numeral (snd p) = Some z /\ e z = Some w) ->
  exists c c', settings junk pw gr file (cmdline l) = Some c /\ settings junk' pw gr file' (cmdline l) = Some c' /\
  c_int c k = c_int c' k.
Proof.
  intros junk junk' pw gr file file' l s k e z w F Nu D (p & I & Hp & Hz & Hw).
  destruct (C80_options_partial junk pw gr file l F Nu) as (c & H & Hn & _).
  destruct (C80_options_partial junk' pw gr file' l F Nu) as (c' & H' & Hn' & _).
  exists c, c'. split; [auto|]. split; [auto|]. rewrite (Hn s k e D), (Hn' s k e D).
  generalize (c_int (read_config_file junk pw gr file (defaults pw gr)) k)
             (c_int (read_config_file junk' pw gr file' (defaults pw gr)) k).
  clear - I Hp Hz Hw. induction l as [|q l IH]; [contradiction I|]. intros a b. cbn [fold_left]. destruct I as [->|I]; [|apply IH; auto].
  unfold becomes_opt at 2 4. rewrite (proj2 (same_iff _ _) Hp), Hz, Hw. reflexivity.
Qed.

(* with no file and no options: the values of the manual page *)
Theorem C80_defaults : forall junk pw gr, exists c, settings junk pw gr None [] = Some c /\
  c_int c UseWatchdog = 1%Z /\ c_int c FireTimeout = 60%Z /\ c_int c IoTimeout = 10%Z /\ c_int c KillGrace = 40%Z /\
  c_int c KillGraceSet = 0%Z /\ c_int c HighPriority = 0%Z /\ c_int c MlockLevel = 1%Z /\ c_int c MaxWorkers = 8%Z /\
  c_int c AioArg = 1%Z /\ c_int c ShRetries = 8%Z /\ c_int c QuietFail = 1%Z /\ c_int c LogfilePriority = 4%Z /\
  c_int c SyslogPriority = 3%Z /\ c_int c NamesLogPriority = 4%Z /\ c_int c WriteInitTimeout = 60%Z /\
  c_int c HistorySize = 180%Z /\ c_int c ReadExtendSet = 0%Z /\ kb c = (0, 0, 1024)%Z /\
  (forall i w, nth_error commands i = Some w ->
   N.testbit (c_cmds c) (N.of_nat i + 1) =
   negb (existsb (String.eqb w) ["inq_lockspace"; "get_lockspaces"; "get_hosts"; "read_lockspace"; "read_resource";
                                 "read_resource_owners"; "write_resource"]%string)) /\
  match gr (txt "sanlock"), pw (txt "sanlock") with
  | Some g, Some u => c_int c Uid = u /\ c_int c Gid = g
  | _, _ => c_int c Uid = 0%Z /\ c_int c Gid = 0%Z
  end.
Proof.
  intros junk pw gr. exists (defaults pw gr). split; [reflexivity|].
  assert (X : exists c0, c_int c0 = default_int /\ c_cmds c0 = c_cmds (defaults (fun _ => None) (fun _ => None)) /\
              ((defaults pw gr = c0 /\ (gr (txt "sanlock") = None \/ pw (txt "sanlock") = None)) \/
               (exists g u, gr (txt "sanlock") = Some g /\ pw (txt "sanlock") = Some u /\
                defaults pw gr = seti Gid g (seti Uid u (sets Gname (txt "sanlock") (sets Uname (txt "sanlock") c0)))))).
  { exists (defaults (fun _ => None) (fun _ => None)). split; [reflexivity|]. split; [reflexivity|].
    unfold defaults. cbv zeta. destruct (gr (txt "sanlock")) as [g|], (pw (txt "sanlock")) as [u|].
    - right. exists g, u. auto.
    - left. auto.
    - left. auto.
    - left. auto. }
  destruct X as (c0 & Hi & Hc & X).
  assert (Y : forall k, k <> Uid -> k <> Gid -> c_int (defaults pw gr) k = default_int k).
  { intros k Nu Ng. destruct X as [[-> _]|(g & u & _ & _ & ->)]; [rewrite Hi; auto|].
    rewrite !seti_other by assumption. cbn [c_int sets]. rewrite Hi. auto. }
  assert (Z : c_cmds (defaults pw gr) = c_cmds c0).
  { destruct X as [[-> _]|(g & u & _ & _ & ->)]; reflexivity. }
  unfold kb. rewrite !Y by discriminate. rewrite Z, Hc.
  repeat (split; [reflexivity|]). split.
  - intros i w H. assert (L : (i < 40)%nat) by (change 40%nat with (length commands); apply nth_error_Some; congruence).
    assert (A : forallb (fun j => match nth_error commands j with
       | Some x => Bool.eqb (N.testbit (c_cmds (defaults (fun _ => None) (fun _ => None))) (N.of_nat j + 1))
         (negb (existsb (String.eqb x) ["inq_lockspace"; "get_lockspaces"; "get_hosts"; "read_lockspace"; "read_resource";
                                        "read_resource_owners"; "write_resource"]%string))
       | None => false end) (seq 0 40) = true) by (vm_compute; reflexivity).
    rewrite forallb_forall in A. specialize (A i). rewrite H in A. apply Bool.eqb_prop, A, in_seq. lia.
  - destruct X as [[-> Q]|(g & u & -> & -> & ->)].
    + rewrite Hi. destruct (gr (txt "sanlock")), (pw (txt "sanlock")); destruct Q; try discriminate; auto.
    + split; reflexivity.
Qed.

(* ---------------- the full statement does not hold ---------------- *)
Definition nobody : bytes -> option Z := fun _ => None.
Definition plain (n v : string) : item := Setting (txt n) [] [] (txt v) [].
Ltac ok_file := repeat constructor; cbn; try lia; try congruence; try (eexists; eexists; split; [reflexivity|lia]); unfold white, blank; lia.
(* "use_aio=0" and behind it "use_watchdog" with no value: there is no watchdog *)
Theorem C80_stale_value_refuted : exists items, Forall item_ok items /\ Forall short items /\
  c_int (conf_read 1 nobody nobody (text items) (defaults nobody nobody)) UseWatchdog = 0%Z /\
  fold_left (becomes "use_watchdog" every) items 1%Z = 1%Z.
Proof.
  exists [plain "use_aio" "0"; Bare (txt "use_watchdog") [] None].
  split; [ok_file|]. split; [repeat constructor; cbn; lia|]. split; vm_compute; reflexivity.
Qed.
(* alone, it takes whatever was on the stack *)
Theorem C80_junk_refuted : exists items, Forall item_ok items /\ Forall short items /\
  forall junk, c_int (conf_read junk nobody nobody (text items) (defaults nobody nobody)) UseWatchdog = junk.
Proof.
  exists [Bare (txt "use_watchdog") [] (Some [32])].
  split; [ok_file|]. split; [repeat constructor; cbn; lia|]. intros junk. vm_compute. reflexivity.
Qed.
(* "use_watchdog = yes" switches it off *)
Theorem C80_word_value_refuted : exists items, Forall item_ok items /\ Forall short items /\
  c_int (conf_read 1 nobody nobody (text items) (defaults nobody nobody)) UseWatchdog = 0%Z /\
  fold_left (becomes "use_watchdog" every) items 1%Z = 1%Z.
Proof.
  exists [Setting (txt "use_watchdog") [32] [32] (txt "yes") []].
  split; [ok_file|]. split; [repeat constructor; cbn; lia|]. split; vm_compute; reflexivity.
Qed.
(* the end of a long comment is read as a setting *)
Theorem C80_comment_refuted : exists items, Forall item_ok items /\ Forall (fun i => exists t, i = Note t) items /\
  c_int (conf_read 1 nobody nobody (text items) (defaults nobody nobody)) UseWatchdog = 0%Z.
Proof.
  exists [Note (repeat 45 126 ++ txt "use_watchdog = 0")].
  split; [|split; [repeat constructor; eexists; reflexivity|vm_compute; reflexivity]].
  constructor; [|constructor]. cbn. repeat (constructor; [lia|]). constructor.
Qed.
(* a number that does not fit an int is cut *)
Theorem C80_cut_value_refuted : exists items, Forall item_ok items /\ Forall short items /\
  c_int (conf_read 1 nobody nobody (text items) (defaults nobody nobody)) IoTimeout = 1%Z /\
  fold_left (becomes "io_timeout" positive_only) items 10%Z = 4294967297%Z.
Proof.
  exists [plain "io_timeout" "4294967297"].
  split; [ok_file|]. split; [repeat constructor; cbn; lia|]. split; vm_compute; reflexivity.
Qed.
(* a name with no value: the daemon runs as root *)
Theorem C80_no_user_refuted : exists items pw, Forall item_ok items /\ Forall short items /\
  c_int (defaults pw pw) Uid = 179%Z /\ c_int (conf_read 1 pw pw (text items) (defaults pw pw)) Uid = 0%Z.
Proof.
  exists [Bare (txt "uname") [] None], (fun n => if eqs n "sanlock" then Some 179%Z else None).
  split; [ok_file|]. split; [repeat constructor; cbn; lia|]. split; vm_compute; reflexivity.
Qed.
(* max_sectors_kb=4294967294 is taken for -2 and accepted *)
Theorem C80_max_sectors_refuted : exists items, Forall item_ok items /\ Forall short items /\
  kb (conf_read 1 nobody nobody (text items) (defaults nobody nobody)) = (0, 0, -2)%Z /\
  fold_left becomes_kb items (0, 0, 1024)%Z = (0, 0, 1024)%Z.
Proof.
  exists [plain "max_sectors_kb" "4294967294"].
  split; [ok_file|]. split; [repeat constructor; cbn; lia|]. split; vm_compute; reflexivity.
Qed.
Theorem C80_refuted : ~ C80_statement.
Proof.
  intros H. destruct C80_stale_value_refuted as (items & O & _ & E & E').
  assert (D : In ("use_watchdog"%string, UseWatchdog, every) doc) by (cbn; tauto).
  specialize (H 1%Z nobody nobody items (defaults nobody nobody) _ _ _ O D).
  rewrite E in H. change (c_int (defaults nobody nobody) UseWatchdog) with 1%Z in H. rewrite E' in H. discriminate H.
Qed.

(* a file that meets the conditions *)
Example C80_nonvacuous :
  let items := [Note (txt " sanlock.conf"); Blank; Setting (txt "use_watchdog") [32] [32] (txt "0") [];
                Setting (txt "io_timeout") [] [9] (txt "20") (txt " # slow"); plain "our_host_name" "host1";
                plain "debug_cmd" "-acquire"; plain "max_sectors_kb" "align"; plain "use_watchdog" "1"] in
  Forall item_ok items /\ Forall short items /\ Forall numeric items /\ Forall kb_plain items /\
  Forall (named ["uname"; "gname"; "our_host_name"]%string) items /\
  (forall c, settings 7 nobody nobody (Some (text items)) (cmdline [(119, txt "0"); (103, txt "5")]) = Some c ->
   c_int c UseWatchdog = 0%Z /\ c_int c IoTimeout = 20%Z /\ c_int c KillGrace = 5%Z /\ kb c = (0, 1, 0)%Z /\
   c_str c OurHostName = Some (txt "host1") /\ N.testbit (c_cmds c) 7 = false /\ N.testbit (c_cmds c) 8 = true) /\
  settings 7 nobody nobody (Some (text items)) (cmdline [(119, txt "0"); (103, txt "5")]) <> None.
Proof.
  cbv zeta. split; [|split; [|split; [|split; [|split; [|split]]]]].
  - unfold plain. repeat match goal with |- Forall item_ok (_ :: _) => constructor end; cbn [item_ok]; try exact I.
    all: repeat match goal with
         | |- _ /\ _ => split
         | |- name_ok _ => split; [|eexists; eexists; split; [reflexivity|discriminate]]
         | |- Forall _ [] => constructor
         | |- Forall _ (_ :: _) => constructor
         | |- Forall _ _ => progress cbn [txt plain]
         | |- _ <> [] => discriminate
         | |- [] = [] \/ _ => left; reflexivity
         | |- txt _ = [] \/ _ => right; eexists; eexists; split; [reflexivity|left; reflexivity]
         | |- blank _ => unfold blank; lia
         | |- _ => unfold white; cbn; lia
         end.
  - repeat constructor; cbn; lia.
  - repeat (apply Forall_cons; [try exact I|]); try apply Forall_nil.
    all: first [intros _; eexists; split; [reflexivity|split; vm_compute; [discriminate|reflexivity]]
               |intros X; exfalso; revert X; apply not_number; reflexivity].
  - repeat (apply Forall_cons; [try exact I|]); try apply Forall_nil.
    all: intros X; try discriminate X. right. left. reflexivity.
  - repeat constructor.
  - intros c H. vm_compute in H. injection H as <-. vm_compute. repeat split; reflexivity.
  - vm_compute. discriminate.
Qed.
Print Assumptions C80_numbers_partial.
Print Assumptions C80_frame.
Print Assumptions C80_strings_partial.
Print Assumptions C80_ids_partial.
Print Assumptions C80_debug_cmds.
Print Assumptions C80_max_sectors_partial.
Print Assumptions C80_debug_io.
Print Assumptions C80_fits.
Print Assumptions C80_host_fits.
Print Assumptions C80_not_named.
Print Assumptions C80_last_line.
Print Assumptions C80_options_partial.
Print Assumptions C80_command_line_wins.
Print Assumptions C80_defaults.
Print Assumptions C80_refuted.
