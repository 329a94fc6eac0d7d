(* C78: `sanlock client status` shows every client, lockspace and resource of the daemon, once each and as it is
   (model in StatusOut.v) *)
From Coq Require Import Ascii String List NArith ZArith Lia Bool Arith Permutation.
From Verif Require Import Bytes Strings StatusOut StatusProof.
Import ListNotations.
Open Scope nat_scope.

(* ---- specification ---- *)
(* a name is what stands before the first 0, 48 characters at most; a path is shown with its escapes *)
Definition name_of (b : bytes) : bytes := firstn 48 (upto_nul b).
Definition show_disk (d : disk) : bytes * N := (path_export 1025 (upto_nul (dk_path d)), dk_off d).
Definition show_space (m : option mark) (s : space) : line :=
  LnSpace (name_of (sp_name s)) (sp_id s) (fst (show_disk (sp_disk s))) (dk_off (sp_disk s)) m.
Definition show_res (m : option mark) (r : resource) (pid : N) : line :=
  LnRes (name_of (rs_ls r)) (name_of (rs_name r)) (map show_disk (rs_disks r))
        (if N.testbit (rs_flags r) 2 then None else Some (rs_lver r)) pid m.
Definition show_tokens (m : option mark) (r : resource) : list line := map (fun t => show_res m r (tk_pid t)) (rs_tokens r).
Definition show (d : daemon) : list line :=
  LnDaemon (name_of (dm_name d)) ::
  map (fun c => LnClient (cl_pid c) (name_of (cl_name c))) (filter cl_used (dm_clients d)) ++
  map (show_space None) (dm_spaces d) ++ map (show_space (Some MAdd)) (dm_sadd d) ++ map (show_space (Some MRem)) (dm_srem d) ++
  flat_map (show_tokens None) (dm_held d) ++ flat_map (show_tokens (Some MAdd)) (dm_radd d) ++
  map (fun r => show_res (Some MRem) r (rs_pid r)) (dm_rrem d) ++ map (fun r => show_res (Some MOrphan) r (rs_pid r)) (dm_orphan d).

(* without sorting: everything, and no byte is written outside of a buffer; sanlock allows 4 disks *)
Definition C78_status_statement : Prop := forall d, wf 4 d -> status NoSort (stream d) = mkO (show d) false 0.

(* sorted: the heads in their order, each followed by what belongs to it and was not shown yet *)
Fixpoint grouped (belongs : line -> line -> bool) (heads rs : list line) : list line :=
  match heads with
  | [] => []
  | h :: t => h :: filter (belongs h) rs ++ grouped belongs t (filter (fun r => negb (belongs h r)) rs)
  end.
Definition orphaned (belongs : line -> line -> bool) (heads rs : list line) : list line :=
  filter (fun r => negb (existsb (fun h => belongs h r) heads)) rs.
Definition is_daemon (l : line) : bool := match l with LnDaemon _ => true | _ => false end.
Definition is_space (l : line) : bool := match l with LnSpace _ _ _ _ _ => true | _ => false end.
Definition is_client (l : line) : bool := match l with LnClient _ _ => true | _ => false end.
Definition is_res (l : line) : bool := match l with LnRes _ _ _ _ _ _ => true | _ => false end.
Definition no_pid (l : line) : bool := match l with LnClient p _ => N.eqb p PID_NONE | _ => false end.
Definition with_pid (l : line) : bool := is_client l && negb (no_pid l).
Definition dashed (l : list line) : list line := match l with [] => [] | _ => LnDash :: l end.
Definition of_pid (h r : line) : bool :=
  match h, r with LnClient p _, LnRes _ _ _ _ q _ => negb (N.eqb p 0) && N.eqb q p | _, _ => false end.
Definition of_ls (h r : line) : bool :=
  match h, r with LnSpace n _ _ _ _, LnRes ls _ _ _ _ _ => if list_eq_dec N.eq_dec n ls then true else false | _, _ => false end.
Definition by_pid (l : list line) : list line :=
  filter is_daemon l ++ filter no_pid l ++ filter is_space l ++
  grouped of_pid (filter with_pid l) (filter is_res l) ++ dashed (orphaned of_pid (filter with_pid l) (filter is_res l)).
Definition by_ls (l : list line) : list line :=
  filter is_daemon l ++ filter no_pid l ++ filter with_pid l ++
  grouped of_ls (filter is_space l) (filter is_res l) ++ dashed (orphaned of_ls (filter is_space l) (filter is_res l)).
Definition C78_sorted_statement : Prop := forall d, wf 4 d ->
  o_lines (status SortP (stream d)) = by_pid (show d) /\ o_lines (status SortS (stream d)) = by_ls (show d).

(* success means that all is shown, whenever the connection ended *)
Definition C78_complete_statement : Prop := forall d k, wf 3 d ->
  o_rv (status NoSort (firstn k (stream d))) = 0%Z -> o_lines (status NoSort (firstn k (stream d))) = show d.
(* what is shown is there *)
Definition C78_true_statement : Prop := forall d k l, wf 3 d -> In l (o_lines (status NoSort (firstn k (stream d)))) -> In l (show d).

(* host_status asks for every lockspace by its name *)
Definition C78_hosts_statement : Prop := forall d, wf 4 d ->
  exists ns, host_status_names (ls_stream d) = Some ns /\
  map host_status_query ns = map (fun s => name_of (sp_name s)) (dm_spaces d ++ dm_sadd d ++ dm_srem d).

(* ---- proofs: one line per entry ---- *)
Lemma upto_nul_zeros n : upto_nul (repeat 0%N n) = [].
Proof. destruct n; reflexivity. Qed.
Lemma upto_nul_idem u : ~ In 0%N (upto_nul u).
Proof. induction u as [|x u IH]; cbn; [tauto|]. destruct (N.eqb_spec x 0); cbn; [tauto|]. intros [?|?]; [congruence|auto]. Qed.
Lemma upto_nul_same u : ~ In 0%N u -> upto_nul u = u.
Proof.
  induction u as [|x u IH]; intros N; [reflexivity|]. cbn. destruct (N.eqb_spec x 0) as [->|_]; [exfalso; apply N; now left|].
  f_equal. apply IH. intros I. apply N. now right.
Qed.
Lemma upto_nul_app_zeros u n : ~ In 0%N u -> upto_nul (u ++ repeat 0%N n) = u.
Proof. destruct n; [rewrite app_nil_r; apply upto_nul_same|]. intros N. cbn [repeat]. now apply upto_nul_no. Qed.
Lemma pname_strncpy s : pname (strncpy48 s) = name_of s.
Proof.
  unfold pname, strncpy48, name_of. pose proof (upto_nul_idem s) as N. set (u := upto_nul s) in *.
  destruct (Nat.le_gt_cases 48 (length u)) as [L|L].
  - rewrite firstn_app. replace (48 - length u) with 0 by lia. rewrite firstn_O, app_nil_r.
    rewrite upto_nul_same; [rewrite firstn_firstn; reflexivity|]. intros I. apply N. rewrite <- (firstn_skipn 48 u). apply in_or_app. now left.
  - rewrite firstn_app, (firstn_all2 u) by lia.
    assert (Z : forall n m, firstn n (repeat 0%N m) = repeat 0%N (Nat.min n m)).
    { clear. induction n as [|n IH]; intros m; [reflexivity|]. destruct m; [reflexivity|]. cbn. f_equal. apply IH. }
    rewrite Z, upto_nul_app_zeros by exact N. rewrite (firstn_all2 u) by lia. reflexivity.
Qed.

Lemma print_daemon d : print_st (ent_daemon d) = [LnDaemon (name_of (dm_name d))].
Proof. cbn -[pname strncpy48]. now rewrite pname_strncpy. Qed.
Lemma print_client c : print_st (ent_client c) = [LnClient (cl_pid c) (name_of (cl_name c))].
Proof. cbn -[pname strncpy48]. now rewrite pname_strncpy. Qed.

Lemma get_path d s : wf_disk d -> get 0 (DSZ - 16) (enc_disk d ++ s) = dk_path d.
Proof. intros (A & B & C). unfold enc_disk. rewrite <- app_assoc. now apply get_here. Qed.
Lemma get_off d s : wf_disk d -> le_dec (get (DSZ - 16) 8 (enc_disk d ++ s)) = dk_off d.
Proof.
  intros (A & B & C). unfold enc_disk. rewrite <- !app_assoc. rewrite get_skip by lia. rewrite A, Nat.sub_diag.
  rewrite get_here by apply le_enc_length. now apply le_dec_enc_small.
Qed.

Lemma print_space ln s : known ln -> wf_space s -> print_st (ent_space ln s) = [show_space (mark_of ln) s].
Proof.
  intros K (I & W & F & LV). assert (NV : sp_vals s <> []) by (intros E; rewrite E in LV; discriminate LV). unfold print_st, ent_space, ent. cbn [e_type e_bin e_str N.eqb T_LOCKSPACE T_DAEMON T_CLIENT Pos.eqb]. cbv zeta.
  rewrite add_rem_text; auto using ls_keys_ok; [|discriminate]. unfold show_space, show_disk. cbn [fst].
  unfold ls_bin. rewrite get_here by apply strncpy48_length. rewrite pname_strncpy.
  rewrite (get_skip 48) by (rewrite strncpy48_length; lia). rewrite strncpy48_length, Nat.sub_diag.
  rewrite get_here by apply le_enc_length. rewrite le_dec_enc_small by exact I.
  rewrite (get_skip 64) by (rewrite strncpy48_length; lia). rewrite strncpy48_length.
  rewrite (get_skip _ _ (le_enc 8 _)) by (rewrite le_enc_length; lia). rewrite le_enc_length.
  rewrite (get_skip _ _ (le_enc 4 _)) by (rewrite le_enc_length; lia). rewrite le_enc_length.
  rewrite (get_skip _ _ (repeat _ _)) by (rewrite repeat_length; lia). rewrite repeat_length.
  replace (64 - 48 - 8 - 4 - 4) with 0 by reflexivity.
  rewrite (get_skip (64 + (DSZ - 16))) by (rewrite strncpy48_length; lia). rewrite strncpy48_length.
  rewrite (get_skip _ _ (le_enc 8 _)) by (rewrite le_enc_length; lia). rewrite le_enc_length.
  rewrite (get_skip _ _ (le_enc 4 _)) by (rewrite le_enc_length; lia). rewrite le_enc_length.
  rewrite (get_skip _ _ (repeat _ _)) by (rewrite repeat_length; lia). rewrite repeat_length.
  replace (64 + (DSZ - 16) - 48 - 8 - 4 - 4) with (DSZ - 16) by lia.
  pose proof (get_path (sp_disk s) [] W) as G1. pose proof (get_off (sp_disk s) [] W) as G2. rewrite app_nil_r in G1, G2.
  rewrite G1, G2. reflexivity.
Qed.

Lemma map_disks ds : Forall wf_disk ds -> forall k pre, length pre = RSZ + k * DSZ ->
  map (bin_disk (pre ++ concat (map enc_disk ds))) (seq k (length ds)) = map show_disk ds.
Proof.
  induction 1 as [|d ds W _ IH]; intros k pre L; [reflexivity|]. cbn [map concat length seq]. f_equal.
  - unfold bin_disk, show_disk. rewrite (get_skip (RSZ + k * DSZ)) by lia. rewrite L, Nat.sub_diag, get_path by exact W.
    rewrite (get_skip (RSZ + k * DSZ + (DSZ - 16))) by lia. rewrite L.
    replace (RSZ + k * DSZ + (DSZ - 16) - (RSZ + k * DSZ)) with (DSZ - 16) by lia. rewrite get_off by exact W. reflexivity.
  - rewrite app_assoc. apply IH. rewrite app_length, L, enc_disk_length by exact W. lia.
Qed.
Lemma shared_bit f : has_shared f = N.testbit f 2.
Proof.
  unfold has_shared. destruct (N.testbit f 2) eqn:E.
  - apply negb_true_iff, N.eqb_neq. intros H. assert (T : N.testbit (N.land f RES_SHARED) 2 = true) by (rewrite N.land_spec, E; reflexivity).
    rewrite H in T. discriminate.
  - apply negb_false_iff, N.eqb_eq. apply N.bits_inj. intros i. rewrite N.land_spec, N.bits_0.
    destruct (N.eq_dec i 2) as [->|NE]; [rewrite E; reflexivity|]. replace (N.testbit RES_SHARED i) with false; [apply andb_false_r|].
    symmetry. change RES_SHARED with (2 ^ 2)%N. apply N.pow2_bits_false. congruence.
Qed.
Lemma print_res max ln r pid tid : known ln -> wf_res max r -> max <= 100 -> plain tid ->
  print_st (ent_res ln r pid tid) = [show_res (mark_of ln) r pid].
Proof.
  intros K W M T. pose proof W as (A & B & C & F & D & L & V & P & FV & _).
  unfold print_st, ent_res, ent. cbn [e_type e_bin e_str e_d32 e_d64 N.eqb T_RESOURCE T_LOCKSPACE T_DAEMON T_CLIENT Pos.eqb]. cbv zeta.
  rewrite add_rem_text; auto using res_keys_ok; [|apply Forall_app; auto|discriminate|destruct (rs_vals r); discriminate].
  unfold show_res. unfold res_bin at 4. rewrite (res_nd r max) by (auto; lia). rewrite Nat2N.id.
  unfold res_bin at 3. rewrite map_disks with (k := 0); [|exact D|rewrite (enc_res_length max r W); lia].
  unfold res_bin. unfold enc_res. rewrite <- !app_assoc.
  rewrite get_here by exact A. rewrite (get_skip 48) by lia. rewrite A, Nat.sub_diag, get_here by exact B.
  rewrite (get_skip 120) by lia. rewrite A. rewrite (get_skip _ _ (rs_name r)) by lia. rewrite B. rewrite (get_skip _ _ (rs_mid r)) by lia. rewrite C.
  replace (120 - 48 - 48 - 24) with 0 by reflexivity. rewrite get_here by apply le_enc_length. rewrite le_dec_enc_small by exact F.
  rewrite shared_bit. reflexivity.
Qed.

Lemma print_all_app a b : print_all (a ++ b) = print_all a ++ print_all b.
Proof. unfold print_all. now rewrite map_app, concat_app. Qed.
Lemma print_all_map {A} (f : A -> entry) (g : A -> line) l : Forall (fun x => print_st (f x) = [g x]) l -> print_all (map f l) = map g l.
Proof. unfold print_all. induction 1 as [|x l H _ IH]; [reflexivity|]. cbn [map concat]. rewrite H, IH. reflexivity. Qed.
Lemma known_in n : In n ["spaces"; "held"; "add"; "rem"; "orphan"]%string -> known n. Proof. auto. Qed.
Lemma print_toks max ln rs : known ln -> max <= 100 -> Forall (wf_res max) rs ->
  print_all (concat (map (tok_ents ln) rs)) = flat_map (show_tokens (mark_of ln)) rs.
Proof.
  intros K M F. induction F as [|r rs W _ IH]; [reflexivity|]. cbn [map concat flat_map]. rewrite print_all_app, IH. f_equal.
  unfold tok_ents, show_tokens. apply print_all_map. pose proof W as (_ & _ & _ & _ & _ & _ & _ & _ & _ & T).
  eapply Forall_impl; [|exact T]. intros t [_ P]. now apply print_res with (max := max).
Qed.
Lemma plain0 : plain (txt "0"). Proof. split; cbn; intuition discriminate. Qed.
Lemma print_entries max d : max <= 100 -> wf max d -> print_all (entries d) = show d.
Proof.
  intros M (C & S & R). unfold entries, show.
  assert (KA : known "add" /\ known "rem" /\ known "orphan" /\ known "spaces" /\ known "held") by (repeat split; apply known_in; cbn; auto 6).
  destruct KA as (K1 & K2 & K3 & K4 & K5).
  apply Forall_app in S as [S1 S]. apply Forall_app in S as [S2 S3].
  apply Forall_app in R as [R1 R]. apply Forall_app in R as [R2 R]. apply Forall_app in R as [R3 R4].
  change (ent_daemon d :: ls_ents d ++ res_ents d) with ([ent_daemon d] ++ ls_ents d ++ res_ents d). rewrite !print_all_app.
  change (print_all [ent_daemon d]) with (print_st (ent_daemon d) ++ []). rewrite app_nil_r, print_daemon. cbn [app]. f_equal.
  unfold ls_ents, res_ents. rewrite !print_all_app, <- !app_assoc.
  f_equal; [apply print_all_map, Forall_forall; intros; apply print_client|].
  assert (SP : forall ln l, known ln -> Forall wf_space l -> print_all (map (ent_space ln) l) = map (show_space (mark_of ln)) l).
  { intros ln l K A. apply print_all_map. rewrite Forall_forall in *. intros s I. apply print_space; auto. }
  f_equal; [apply (SP "spaces"%string); auto|]. f_equal; [apply (SP "add"%string); auto|]. f_equal; [apply (SP "rem"%string); auto|].
  f_equal; [apply (print_toks max "held"); auto|]. f_equal; [apply (print_toks max "add"); auto|].
  f_equal; apply print_all_map; [eapply Forall_impl; [|exact R3]|eapply Forall_impl; [|exact R4]]; intros r W.
  - apply (print_res max "rem"); auto using plain0.
  - apply (print_res max "orphan"); auto using plain0.
Qed.

(* Without sorting, when no resource has four disks: the command shows everything, once each and as it is. *)
Theorem C78_status_partial d : wf 3 d -> status NoSort (stream d) = mkO (show d) false 0.
Proof.
  intros W. unfold status. rewrite (receive_stream MAXSTR 3 d); auto; [|rewrite maxstr_val, dsz_val; vm_compute; lia|lia].
  rewrite (print_entries 3); auto. lia.
Qed.

(* ---- sorting ---- *)
Definition ok (e : entry) (l : line) : Prop :=
  print_st e = [l] /\ (is_type T_LOCKSPACE e = true -> pname (e_name e) = pname (get 0 48 (e_bin e))).
Definition four (l : line) : Prop := match l with LnDash | LnCannot => False | _ => True end.
Lemma ok_kind e l : ok e l ->
  is_type T_DAEMON e = is_daemon l /\ is_type T_CLIENT e = is_client l /\ is_type T_LOCKSPACE e = is_space l /\ is_type T_RESOURCE e = is_res l /\
  (is_type T_CLIENT e && N.eqb (e_d32 e) PID_NONE = no_pid l) /\ four l.
Proof.
  intros [P _]. unfold print_st in P. unfold is_type.
  destruct (N.eqb_spec (e_type e) T_DAEMON) as [->|N1]; [injection P as <-; cbn; auto 7|].
  destruct (N.eqb_spec (e_type e) T_CLIENT) as [->|N2]; [injection P as <-; cbn; auto 7|].
  destruct (N.eqb_spec (e_type e) T_LOCKSPACE) as [->|N3]; [injection P as <-; cbn; auto 7|].
  destruct (N.eqb_spec (e_type e) T_RESOURCE) as [N4|N4]; [injection P as <-; cbn; auto 7|]. discriminate.
Qed.
Lemma ok_of_pid h lh e l : ok h lh -> ok e l -> is_type T_CLIENT h = true -> r_of_p h e = of_pid lh l.
Proof.
  intros H E T. pose proof (ok_kind _ _ E) as (_ & _ & _ & K & _). destruct H as [H _]. destruct E as [E _].
  unfold is_type in T. apply N.eqb_eq in T. unfold print_st in H. rewrite T in H. cbn in H. injection H as <-.
  unfold r_of_p. rewrite K. unfold print_st in E.
  destruct (N.eqb (e_type e) T_DAEMON); [injection E as <-; reflexivity|].
  destruct (N.eqb (e_type e) T_CLIENT); [injection E as <-; reflexivity|].
  destruct (N.eqb (e_type e) T_LOCKSPACE); [injection E as <-; reflexivity|].
  destruct (N.eqb (e_type e) T_RESOURCE); [injection E as <-|discriminate]. cbn. reflexivity.
Qed.
Lemma eqb_bytes_dec a b : eqb_bytes a b = if list_eq_dec N.eq_dec a b then true else false.
Proof.
  destruct (list_eq_dec N.eq_dec a b) as [->|N].
  - induction b; cbn; [reflexivity|]. now rewrite N.eqb_refl.
  - revert b N. induction a as [|x a IH]; intros [|y b] N; try reflexivity; [congruence|]. cbn.
    destruct (N.eqb_spec x y) as [->|]; [|reflexivity]. cbn. apply IH. congruence.
Qed.
Lemma ok_of_ls h lh e l : ok h lh -> ok e l -> is_type T_LOCKSPACE h = true -> r_of_s h e = of_ls lh l.
Proof.
  intros [H NM] E T. pose proof (ok_kind _ _ E) as (_ & _ & _ & K & _). specialize (NM T). destruct E as [E _].
  unfold is_type in T. apply N.eqb_eq in T. unfold print_st in H. rewrite T in H. cbn -[get pname export DSZ] in H. injection H as <-.
  unfold r_of_s. rewrite K, NM, eqb_bytes_dec. unfold print_st in E.
  destruct (N.eqb (e_type e) T_DAEMON); [injection E as <-; reflexivity|].
  destruct (N.eqb (e_type e) T_CLIENT); [injection E as <-; reflexivity|].
  destruct (N.eqb (e_type e) T_LOCKSPACE); [injection E as <-; reflexivity|].
  destruct (N.eqb (e_type e) T_RESOURCE); [injection E as <-|discriminate]. cbn -[get pname DSZ]. reflexivity.
Qed.
Lemma ok_print es ls : Forall2 ok es ls -> print_all es = ls.
Proof. unfold print_all. induction 1 as [|e l es ls [P _] _ IH]; [reflexivity|]. cbn [map concat]. rewrite P, IH. reflexivity. Qed.
Lemma ok_filter f g es ls : Forall2 ok es ls -> (forall e l, ok e l -> f e = g l) -> Forall2 ok (filter f es) (filter g ls).
Proof.
  intros F H. induction F as [|e l es ls O _ IH]; [constructor|]. cbn [filter]. rewrite (H e l O). destruct (g l); auto.
Qed.
Lemma filter_filter {A} (p q : A -> bool) l : filter p (filter q l) = filter (fun x => q x && p x) l.
Proof.
  induction l as [|x l IH]; [reflexivity|]. cbn [filter]. destruct (q x); cbn [filter andb]; [destruct (p x); [apply (f_equal (cons x))|]|]; exact IH.
Qed.
Lemma filter_none {A} (p : A -> bool) l : (forall x, In x l -> p x = false) -> filter p l = [].
Proof. induction l as [|x l IH]; intros H; [reflexivity|]. cbn. rewrite H by now left. apply IH. intros; apply H; now right. Qed.
Lemma filter_le {A} (p : A -> bool) l : length (filter p l) <= length l.
Proof. induction l as [|x l IH]; cbn; [lia|]. destruct (p x); cbn; lia. Qed.
Lemma four_all es ls : Forall2 ok es ls -> Forall four ls.
Proof. induction 1 as [|e l es ls O _ IH]; constructor; auto. now apply ok_kind in O. Qed.

(* groups *)
Lemma find_spec t ishead es ls : Forall2 ok es ls -> (forall e l, ok e l -> is_type t e = ishead l) ->
  match find_type t es with
  | None => filter ishead ls = []
  | Some (h, es1) => exists lh ls1, ok h lh /\ is_type t h = true /\ Forall2 ok es1 ls1 /\ length es = S (length es1) /\
      filter ishead ls = lh :: filter ishead ls1 /\ filter (fun l => negb (ishead l)) ls = filter (fun l => negb (ishead l)) ls1
  end.
Proof.
  intros F H. induction F as [|e l es ls O F IH]; [reflexivity|]. cbn [find_type filter]. rewrite <- (H e l O).
  destruct (is_type t e) eqn:T.
  - exists l, ls. cbn [negb length]. auto 7.
  - destruct (find_type t es) as [[h es1]|]; [|exact IH]. destruct IH as (lh & ls1 & A & B & C & D & E & G).
    assert (T' : ishead l = false) by (rewrite <- (H e l O); exact T).
    exists lh, (l :: ls1). cbn [filter length]. rewrite T'. cbn [negb]. rewrite D, E, G. auto 7.
Qed.
Lemma grp_spec t ishead sel belongs :
  (forall e l, ok e l -> is_type t e = ishead l) ->
  (forall h lh e l, ok h lh -> ok e l -> is_type t h = true -> sel h e = belongs lh l) ->
  (forall lh l, ishead l = true -> belongs lh l = false) ->
  forall fuel es ls, Forall2 ok es ls -> length es <= fuel ->
  exists b, grp fuel t sel es = (grouped belongs (filter ishead ls) (filter (fun l => negb (ishead l)) ls), b) /\
    Forall2 ok b (orphaned belongs (filter ishead ls) (filter (fun l => negb (ishead l)) ls)).
Proof.
  intros H1 H2 H3. induction fuel as [|n IH]; intros es ls F L.
  - destruct es; [|cbn in L; lia]. inversion F; subst. exists []. split; [reflexivity|constructor].
  - cbn [grp]. pose proof (find_spec t ishead es ls F H1) as FS. destruct (find_type t es) as [[h es1]|].
    + destruct FS as (lh & ls1 & A & B & C & D & E & G). cbn [print_if].
      unfold print_if.
      set (es2 := filter (fun e => negb (sel h e)) es1).
      set (ls2 := filter (fun l => negb (belongs lh l)) ls1).
      assert (F2 : Forall2 ok es2 ls2) by (apply ok_filter; [exact C|]; intros e l O; now rewrite (H2 h lh e l A O B)).
      assert (L2 : length es2 <= n).
      { unfold es2. pose proof (filter_le (fun e => negb (sel h e)) es1). lia. }
      destruct (IH es2 ls2 F2 L2) as (b & -> & FB). exists b.
      assert (HE : filter ishead ls2 = filter ishead ls1).
      { unfold ls2. rewrite filter_filter. apply filter_ext. intros l. destruct (ishead l) eqn:Q; [rewrite (H3 lh l Q)|rewrite andb_false_r]; reflexivity. }
      assert (NE : filter (fun l => negb (ishead l)) ls2 = filter (fun l => negb (belongs lh l)) (filter (fun l => negb (ishead l)) ls1)).
      { unfold ls2. rewrite !filter_filter. apply filter_ext. intros l. apply andb_comm. }
      assert (SE : filter (belongs lh) ls1 = filter (belongs lh) (filter (fun l => negb (ishead l)) ls1)).
      { rewrite filter_filter. apply filter_ext. intros l. destruct (ishead l) eqn:Q; [rewrite (H3 lh l Q)|]; reflexivity. }
      split.
      * rewrite E, G. cbn [grouped]. rewrite <- NE, <- HE, <- SE. f_equal.
        rewrite (ok_print _ _ (ok_filter (sel h) (belongs lh) es1 ls1 C (fun e l O => H2 h lh e l A O B))).
        destruct A as [A _]. rewrite A. reflexivity.
      * rewrite E, G. rewrite HE, NE in FB. unfold orphaned in *. rewrite filter_filter in FB. cbn [existsb].
        erewrite filter_ext; [exact FB|]. intros l. cbn. now rewrite negb_orb.
    + rewrite FS. exists es. cbn [grouped]. split; [reflexivity|]. unfold orphaned. cbn [existsb negb].
      assert (EQ : filter (fun _ => true) (filter (fun l => negb (ishead l)) ls) = ls).
      { rewrite filter_filter. rewrite <- (filter_ext_in (fun _ => true)).
        - clear. induction ls; cbn; congruence.
        - intros l I. destruct (ishead l) eqn:Q; [|reflexivity]. exfalso.
          assert (In l (filter ishead ls)) by (apply filter_In; auto). rewrite FS in H. destruct H. }
      rewrite EQ. exact F.
Qed.

Definition is_t1 (by_p : bool) (l : line) : bool := if by_p then is_space l else is_client l.
Lemma sorted_lines t1 t2 sel p1 p2 belongs es ls :
  (forall e l, ok e l -> is_type t1 e = p1 l) -> (forall e l, ok e l -> is_type t2 e = p2 l) ->
  (forall h lh e l, ok h lh -> ok e l -> is_type t2 h = true -> sel h e = belongs lh l) ->
  (forall lh l, p2 l = true -> belongs lh l = false) ->
  (forall l, four l -> is_daemon l = true -> p1 l = false /\ p2 l = false) ->
  Forall2 ok es ls ->
  let rest := filter (fun l => negb (is_daemon l || no_pid l || p1 l)) ls in
  sorted t1 t2 sel es =
    filter is_daemon ls ++ filter (fun l => negb (is_daemon l) && no_pid l) ls ++
    filter (fun l => negb (is_daemon l || no_pid l) && p1 l) ls ++
    grouped belongs (filter p2 rest) (filter (fun l => negb (p2 l)) rest) ++
    dashed (orphaned belongs (filter p2 rest) (filter (fun l => negb (p2 l)) rest)).
Proof.
  intros H1 H2 H3 H4 H5 F. cbv zeta. unfold sorted, print_if.
  assert (F1 : Forall2 ok (filter (is_type T_DAEMON) es) (filter is_daemon ls)) by (apply ok_filter; auto; intros e l O; apply (ok_kind e l O)).
  rewrite (ok_print _ _ F1).
  set (b1 := filter (fun e => negb (is_type T_DAEMON e)) es).
  assert (G1 : Forall2 ok b1 (filter (fun l => negb (is_daemon l)) ls)) by (apply ok_filter; auto; intros e l O; f_equal; apply (ok_kind e l O)).
  set (L1 := filter (fun l => negb (is_daemon l)) ls) in *.
  assert (F2 : Forall2 ok (filter (fun e => is_type T_CLIENT e && N.eqb (e_d32 e) PID_NONE) b1) (filter no_pid L1)) by (apply ok_filter; auto; intros e l O; apply (ok_kind e l O)).
  rewrite (ok_print _ _ F2).
  set (b2 := filter (fun e => negb (is_type T_CLIENT e && N.eqb (e_d32 e) PID_NONE)) b1).
  assert (G2 : Forall2 ok b2 (filter (fun l => negb (no_pid l)) L1)) by (apply ok_filter; auto; intros e l O; f_equal; apply (ok_kind e l O)).
  set (L2 := filter (fun l => negb (no_pid l)) L1) in *.
  rewrite (ok_print _ _ (ok_filter (is_type t1) p1 b2 L2 G2 H1)).
  set (b3 := filter (fun e => negb (is_type t1 e)) b2).
  assert (G3 : Forall2 ok b3 (filter (fun l => negb (p1 l)) L2)) by (apply ok_filter; auto; intros e l O; f_equal; auto).
  set (L3 := filter (fun l => negb (p1 l)) L2) in *.
  destruct (grp_spec t2 p2 sel belongs H2 H3 H4 (length b3) b3 L3 G3 (Nat.le_refl _)) as (b & -> & FB).
  assert (E3 : L3 = filter (fun l => negb (is_daemon l || no_pid l || p1 l)) ls).
  { unfold L3, L2, L1. rewrite !filter_filter. apply filter_ext. intros l. rewrite !negb_orb, andb_assoc. reflexivity. }
  rewrite <- E3. unfold L2, L1. rewrite !filter_filter.
  f_equal. f_equal. f_equal; [apply filter_ext; intros l; now rewrite negb_orb, andb_assoc|]. f_equal.
  unfold dashed. rewrite <- (ok_print _ _ FB). destruct FB as [|e l b0 l0 [O _] FB]; [reflexivity|].
  cbn [print_all map concat]. unfold print_all. cbn [map concat]. rewrite O. reflexivity.
Qed.

Lemma sorted_p es ls : Forall2 ok es ls -> sorted T_LOCKSPACE T_CLIENT r_of_p es = by_pid ls.
Proof.
  intros F. pose proof (four_all es ls F) as FO. rewrite Forall_forall in FO.
  rewrite (sorted_lines T_LOCKSPACE T_CLIENT r_of_p is_space is_client of_pid es ls); auto.
  - unfold by_pid. rewrite !filter_filter.
    f_equal. f_equal; [apply filter_ext_in; intros l I; specialize (FO l I); destruct l; cbn; try reflexivity; destruct FO|].
    f_equal; [apply filter_ext_in; intros l I; specialize (FO l I); destruct l; cbn; try reflexivity; try destruct (N.eqb _ _); try reflexivity; destruct FO|].
    replace (filter (fun x => negb (is_daemon x || no_pid x || is_space x) && is_client x) ls) with (filter with_pid ls)
      by (apply filter_ext_in; intros l I; specialize (FO l I); destruct l; cbn; try reflexivity; try destruct (N.eqb _ _); try reflexivity; destruct FO).
    replace (filter (fun x => negb (is_daemon x || no_pid x || is_space x) && negb (is_client x)) ls) with (filter is_res ls)
      by (apply filter_ext_in; intros l I; specialize (FO l I); destruct l; cbn; try reflexivity; try destruct (N.eqb _ _); try reflexivity; destruct FO).
    reflexivity.
  - intros e l O. apply (ok_kind e l O).
  - intros e l O. apply (ok_kind e l O).
  - intros h lh e l. apply ok_of_pid.
  - intros lh l H. destruct l; try discriminate. destruct lh; reflexivity.
  - intros l _ H. destruct l; try discriminate. auto.
Qed.
Lemma sorted_s es ls : Forall2 ok es ls -> sorted T_CLIENT T_LOCKSPACE r_of_s es = by_ls ls.
Proof.
  intros F. pose proof (four_all es ls F) as FO. rewrite Forall_forall in FO.
  rewrite (sorted_lines T_CLIENT T_LOCKSPACE r_of_s is_client is_space of_ls es ls); auto.
  - unfold by_ls. rewrite !filter_filter.
    f_equal. f_equal; [apply filter_ext_in; intros l I; specialize (FO l I); destruct l; cbn; try reflexivity; destruct FO|].
    f_equal; [apply filter_ext_in; intros l I; specialize (FO l I); destruct l; cbn; try reflexivity; try destruct (N.eqb _ _); try reflexivity; destruct FO|].
    replace (filter (fun x => negb (is_daemon x || no_pid x || is_client x) && is_space x) ls) with (filter is_space ls)
      by (apply filter_ext_in; intros l I; specialize (FO l I); destruct l; cbn; try reflexivity; try destruct (N.eqb _ _); try reflexivity; destruct FO).
    replace (filter (fun x => negb (is_daemon x || no_pid x || is_client x) && negb (is_space x)) ls) with (filter is_res ls)
      by (apply filter_ext_in; intros l I; specialize (FO l I); destruct l; cbn; try reflexivity; try destruct (N.eqb _ _); try reflexivity; destruct FO).
    reflexivity.
  - intros e l O. apply (ok_kind e l O).
  - intros e l O. apply (ok_kind e l O).
  - intros h lh e l. apply ok_of_ls.
  - intros lh l H. destruct l; try discriminate. destruct lh; reflexivity.
  - intros l _ H. destruct l; try discriminate. auto.
Qed.

(* ---- the daemon's entries ---- *)
Definition fine (e : entry) : Prop :=
  (exists l, print_st e = [l]) /\ (is_type T_LOCKSPACE e = true -> pname (e_name e) = pname (get 0 48 (e_bin e))) /\ 1 <= length (e_str e).
Lemma fine_toks max ln rs : known ln -> max <= 100 -> Forall (wf_res max) rs -> Forall fine (concat (map (tok_ents ln) rs)).
Proof.
  intros K M F. induction F as [|r rs W _ IH]; [constructor|]. cbn [map concat]. apply Forall_app. split; [|exact IH].
  unfold tok_ents. rewrite Forall_map. pose proof W as (_ & _ & _ & _ & _ & _ & _ & _ & _ & T).
  eapply Forall_impl; [|exact T]. intros t [_ P]. split; [eexists; now apply print_res with (max := max)|]. split; [discriminate|apply snp_length].
Qed.
Lemma fine_entries max d : max <= 100 -> wf max d -> Forall fine (entries d).
Proof.
  intros M (C & S & R). unfold entries, ls_ents, res_ents.
  assert (KA : known "add" /\ known "rem" /\ known "orphan" /\ known "spaces" /\ known "held") by (repeat split; apply known_in; cbn; auto 6).
  destruct KA as (K1 & K2 & K3 & K4 & K5).
  apply Forall_app in S as [S1 S]. apply Forall_app in S as [S2 S3].
  apply Forall_app in R as [R1 R]. apply Forall_app in R as [R2 R]. apply Forall_app in R as [R3 R4].
  assert (SP : forall ln l, known ln -> Forall wf_space l -> Forall fine (map (ent_space ln) l)).
  { intros ln l K A. rewrite Forall_map. eapply Forall_impl; [|exact A]. intros s W. split; [eexists; now apply print_space|].
    split; [|apply snp_length]. intros _. cbn [ent_space ent e_name e_bin]. unfold ls_bin. rewrite get_here by apply strncpy48_length. reflexivity. }
  assert (SR : forall ln l, known ln -> Forall (wf_res max) l -> Forall fine (map (fun r => ent_res ln r (rs_pid r) (txt "0")) l)).
  { intros ln l K A. rewrite Forall_map. eapply Forall_impl; [|exact A]. intros s W.
    split; [eexists; apply print_res with (max := max); auto using plain0|]. split; [discriminate|apply snp_length]. }
  constructor; [split; [eexists; apply print_daemon|split; [discriminate|apply snp_length]]|].
  repeat (apply Forall_app; split); eauto using fine_toks.
  rewrite Forall_map. apply Forall_forall. intros c _. split; [eexists; apply print_client|split; [discriminate|apply snp_length]].
Qed.
Lemma entries_ok max d : max <= 100 -> wf max d -> Forall2 ok (entries d) (show d).
Proof.
  intros M W. rewrite <- (print_entries max d M W). pose proof (fine_entries max d M W) as F.
  induction F as [|e es ((l & P) & N & _) F IH]; [constructor|]. unfold print_all. cbn [map concat]. rewrite P. constructor; [split; auto|exact IH].
Qed.
Lemma entries_show max d : max <= 100 -> wf max d -> length (entries d) = length (show d).
Proof. intros M W. pose proof (entries_ok max d M W) as F. induction F; cbn; congruence. Qed.
Lemma room4 : RSZ + 4 * DSZ <= 3 * MAXSTR.
Proof. rewrite maxstr_val, dsz_val. unfold RSZ. lia. Qed.
Lemma max_sort_val : MAX_SORT = N.to_nat 1024. Proof. reflexivity. Qed.

(* Sorted, up to 1024 entries: everything in the order the man page gives, and nothing is written outside of a buffer
   even with four disks. *)
Theorem C78_sorted_partial d : wf 4 d -> (N.of_nat (length (show d)) <= 1024)%N ->
  status SortP (stream d) = mkO (by_pid (show d)) false 0 /\ status SortS (stream d) = mkO (by_ls (show d)) false 0.
Proof.
  intros W L. pose proof (entries_ok 4 d ltac:(lia) W) as F. pose proof (entries_show 4 d ltac:(lia) W) as E.
  unfold status. rewrite (receive_stream (3 * MAXSTR) 4 d room4 ltac:(lia) W).
  rewrite skipn_all2 by (rewrite max_sort_val; lia). rewrite (sorted_p _ _ F), (sorted_s _ _ F). auto.
Qed.

(* What by_pid and by_ls say: the same lines in another order, and one dash before the resources that belong to nothing. *)
Definition no_dash (l : line) : bool := match l with LnDash => false | _ => true end.
Lemma split_perm {A} (p : A -> bool) l : Permutation l (filter p l ++ filter (fun x => negb (p x)) l).
Proof.
  induction l as [|x l IH]; [constructor|]. cbn [filter]. destruct (p x); cbn [negb app]; [now constructor|].
  rewrite <- Permutation_middle. now constructor.
Qed.
Lemma grouped_perm belongs hs : forall rs, Permutation (grouped belongs hs rs ++ orphaned belongs hs rs) (hs ++ rs).
Proof.
  induction hs as [|h hs IH]; intros rs.
  - cbn [grouped app]. unfold orphaned. cbn [existsb negb]. assert (E : filter (fun _ : line => true) rs = rs) by (clear; induction rs; cbn; congruence). now rewrite E.
  - cbn [grouped app]. constructor. rewrite <- app_assoc.
    assert (E : orphaned belongs (h :: hs) rs = orphaned belongs hs (filter (fun r => negb (belongs h r)) rs)).
    { unfold orphaned. rewrite filter_filter. apply filter_ext. intros l. cbn [existsb]. now rewrite negb_orb. }
    rewrite E, IH. transitivity (hs ++ filter (belongs h) rs ++ filter (fun x => negb (belongs h x)) rs);
      [rewrite !app_assoc; apply Permutation_app_tail, Permutation_app_comm|apply Permutation_app_head; symmetry; apply split_perm].
Qed.
Lemma no_dash_dashed l : filter no_dash (dashed l) = filter no_dash l.
Proof. destruct l; reflexivity. Qed.
Lemma no_dash_four l : Forall four l -> filter no_dash l = l.
Proof. induction 1 as [|x l H _ IH]; [reflexivity|]. cbn. destruct x; cbn in *; try contradiction; now rewrite IH. Qed.
Lemma filter_perm {A} (p : A -> bool) a b : Permutation a b -> Permutation (filter p a) (filter p b).
Proof.
  induction 1; cbn; auto.
  - destruct (p x); auto.
  - destruct (p x), (p y); auto. constructor.
  - etransitivity; eauto.
Qed.
Lemma by_perm p1 p2 belongs l : Forall four l ->
  (forall x, four x -> negb (is_daemon x) && negb (no_pid x) && negb (p1 x) && negb (p2 x) = is_res x) ->
  (forall x, four x -> p1 x = true -> is_daemon x = false /\ no_pid x = false) ->
  (forall x, four x -> p2 x = true -> is_daemon x = false /\ no_pid x = false /\ p1 x = false) ->
  Permutation (filter no_dash (filter is_daemon l ++ filter no_pid l ++ filter p1 l ++ grouped belongs (filter p2 l) (filter is_res l) ++
               dashed (orphaned belongs (filter p2 l) (filter is_res l)))) l.
Proof.
  intros F H1 H2 H3. rewrite Forall_forall in F. rewrite !filter_app, no_dash_dashed.
  transitivity (filter no_dash (filter is_daemon l ++ filter no_pid l ++ filter p1 l ++ filter p2 l ++ filter is_res l)).
  - rewrite !filter_app. do 3 apply Permutation_app_head. rewrite <- !filter_app. apply filter_perm, grouped_perm.
  - transitivity (filter no_dash l); [|rewrite no_dash_four; [reflexivity|now apply Forall_forall]]. apply filter_perm.
    etransitivity; [|symmetry; apply (split_perm is_daemon l)]. apply Permutation_app_head.
    etransitivity; [|symmetry; apply (split_perm no_pid (filter (fun x => negb (is_daemon x)) l))].
    replace (filter no_pid (filter (fun x => negb (is_daemon x)) l)) with (filter no_pid l)
      by (rewrite filter_filter; apply filter_ext_in; intros x I; specialize (F x I); destruct x; cbn; try reflexivity; destruct F).
    apply Permutation_app_head. rewrite filter_filter.
    etransitivity; [|symmetry; apply (split_perm p1 (filter _ l))]. rewrite !filter_filter.
    replace (filter (fun x => negb (is_daemon x) && negb (no_pid x) && p1 x) l) with (filter p1 l)
      by (apply filter_ext_in; intros x I; destruct (p1 x) eqn:Q; [destruct (H2 x (F x I) Q) as [-> ->]|rewrite andb_false_r]; reflexivity).
    apply Permutation_app_head.
    etransitivity; [|symmetry; apply (split_perm p2 (filter _ l))]. rewrite !filter_filter.
    replace (filter (fun x => negb (is_daemon x) && negb (no_pid x) && negb (p1 x) && p2 x) l) with (filter p2 l)
      by (apply filter_ext_in; intros x I; destruct (p2 x) eqn:Q; [destruct (H3 x (F x I) Q) as (-> & -> & ->)|rewrite andb_false_r]; reflexivity).
    apply Permutation_app_head. apply Permutation_refl'. apply filter_ext_in. intros x I. symmetry. now apply H1, F.
Qed.
Theorem C78_sorted_all d : wf 4 d ->
  Permutation (filter no_dash (by_pid (show d))) (show d) /\ Permutation (filter no_dash (by_ls (show d))) (show d).
Proof.
  intros W. pose proof (four_all _ _ (entries_ok 4 d ltac:(lia) W)) as F. split; apply by_perm; auto.
  all: intros x H; destruct x; cbn; try destruct H; intuition (try discriminate); try (destruct (N.eqb _ _)); cbn in *; congruence.
Qed.

(* More than 1024 entries: nothing is shown, and the result is a positive number *)
Theorem C78_many d so : wf 4 d -> (1024 < N.of_nat (length (show d)))%N -> so <> NoSort ->
  o_lines (status so (stream d)) = [LnCannot] /\ (0 < o_rv (status so (stream d)))%Z.
Proof.
  intros W L S. pose proof (entries_show 4 d ltac:(lia) W) as E.
  assert (R : status so (stream d) = match skipn MAX_SORT (entries d) with e :: _ => mkO [LnCannot] false (Z.of_nat (length (e_str e))) | [] => status so (stream d) end).
  { unfold status. rewrite (receive_stream (3 * MAXSTR) 4 d room4 ltac:(lia) W). destruct so; [congruence| |]; destruct (skipn MAX_SORT (entries d)); reflexivity. }
  pose proof (fine_entries 4 d ltac:(lia) W) as F.
  destruct (skipn MAX_SORT (entries d)) as [|e r] eqn:K.
  - exfalso. apply (f_equal (@length entry)) in K. rewrite skipn_length, max_sort_val in K. cbn [length] in K. lia.
  - rewrite R. split; [reflexivity|]. cbn [o_rv].
    rewrite <- (firstn_skipn MAX_SORT (entries d)), K in F. apply Forall_app in F as [_ F]. inversion F as [|? ? (_ & _ & LE) _]; subst. lia.
Qed.

(* ---- the connection ends early ---- *)
Definition cutpiece (room : nat) (p : bytes) : Prop := forall k, k < length p ->
  rx1 room (firstn k p) = RxEnd \/ exists e, rx1 room (firstn k p) = RxEntry e [].
Lemma firstn_over {A} k (a b : list A) : length a <= k -> firstn k (a ++ b) = a ++ firstn (k - length a) b.
Proof. intros L. rewrite firstn_app, (firstn_all2 a) by exact L. reflexivity. Qed.
Lemma cut_state room ty a b name text bin : (ty < 2 ^ 32)%N -> (a < 2 ^ 32)%N -> (b < 2 ^ 64)%N ->
  (bin = [] \/ forall j, j < length bin -> exists x, recv_bin room ty (firstn j bin) = Some (x, [])) ->
  cutpiece room (send_state ty a b name text ++ bin).
Proof.
  intros Ht Ha Hb HB k L. set (ss := send_state ty a b name text) in *.
  destruct (Nat.le_gt_cases (length ss) k) as [G|G].
  - rewrite firstn_over by exact G. unfold ss. rewrite rx_state by assumption. fold ss. destruct HB as [->|HB].
    + rewrite app_length in L. cbn [length] in L. lia.
    + rewrite app_length in L. destruct (HB (k - length ss)) as [x E]; [lia|]. rewrite E. right. eauto.
  - left. rewrite firstn_app. replace (k - length ss) with 0 by lia. rewrite firstn_O, app_nil_r.
    unfold ss, send_state in *. cbv zeta in *. set (H := enc_state _ _ _ _ _) in *.
    assert (LH : length H = 80) by (apply enc_state_length, strncpy48_length). destruct (snp_length text) as [U1 U2].
    unfold rx1. cbv zeta. destruct (length (firstn k (H ++ snp text)) <? 80) eqn:E; [reflexivity|]. apply Nat.ltb_ge in E.
    rewrite firstn_length in E. assert (80 <= k) by lia. rewrite firstn_over by lia. rewrite firstn_here, skipn_here by exact LH.
    assert (SL : le_dec (get 72 4 H) = N.of_nat (length (snp text))).
    { apply state_len; [apply strncpy48_length|]. rewrite maxstr_val in U1. lia. }
    rewrite SL, Nat2N.id. replace (MAXSTR <? length (snp text)) with false by (symmetry; apply Nat.ltb_ge; lia).
    rewrite app_length in G. replace (length (firstn (k - length H) (snp text)) <? length (snp text)) with true; [reflexivity|].
    symmetry. apply Nat.ltb_lt. rewrite firstn_length. lia.
Qed.
Lemma skipn_short {A} n (l : list A) : length l <= n -> skipn n l = [].
Proof. apply skipn_all2. Qed.
Lemma cut_space room ln s : wf_space s -> cutpiece room (send_lockspace ln s).
Proof.
  intros W. unfold send_lockspace. fold (ls_bin s). apply cut_state; try reflexivity; [apply W|]. right. intros j L.
  unfold recv_bin. rewrite N.eqb_refl. eexists. rewrite (skipn_short LSZ); [reflexivity|]. rewrite firstn_length, (ls_bin_length s W) in *. lia.
Qed.
Lemma cut_res room max ln r pid tid : wf_res max r -> (pid < 2 ^ 32)%N -> RSZ + max * DSZ <= room -> max <= 100 ->
  cutpiece room (send_resource ln r pid tid).
Proof.
  intros W P RM MX. unfold send_resource. fold (res_bin r). apply cut_state; try reflexivity; try exact P; [apply W|]. right. intros j L.
  pose proof W as (_ & _ & _ & _ & D & LD & _). pose proof (enc_res_length max r W) as LR. pose proof (disks_length _ D) as LC.
  unfold res_bin in *. rewrite app_length, LR, LC in L.
  assert (LM : length (rs_disks r) * DSZ <= max * DSZ) by (apply Nat.mul_le_mono_r; exact LD).
  unfold recv_bin. replace (N.eqb T_RESOURCE T_LOCKSPACE) with false by reflexivity. rewrite N.eqb_refl. cbv zeta.
  destruct (Nat.le_gt_cases j RSZ) as [J|J].
  - rewrite (skipn_short RSZ) by (rewrite firstn_length; lia). rewrite skipn_nil, firstn_nil. cbn [length]. rewrite Nat.min_0_r.
    replace (room <? RSZ + 0) with false by (symmetry; apply Nat.ltb_ge; lia). eauto.
  - rewrite firstn_over by lia. rewrite (res_nd r max) by (auto; lia). rewrite Nat2N.id. rewrite skipn_here, firstn_here by exact LR.
    set (t := firstn (j - length (enc_res r)) _). assert (LT : length t < length (rs_disks r) * DSZ) by (unfold t; rewrite firstn_length; lia).
    replace (room <? _) with false by (symmetry; apply Nat.ltb_ge; lia). rewrite skipn_short by lia. eauto.
Qed.
Lemma ls_cut room max d : wf max d -> Forall (cutpiece room) (ls_pieces d).
Proof.
  intros (C & S & _). unfold ls_pieces. apply Forall_app in S as [S1 S]. apply Forall_app in S as [S2 S3].
  repeat (apply Forall_app; split); rewrite Forall_map; try (eapply Forall_impl; [|eassumption]; intros s W; now apply cut_space).
  apply Forall_forall. intros c I. apply filter_In in I as [I U]. rewrite Forall_forall in C. unfold send_client. rewrite U.
  rewrite <- (app_nil_r (send_state _ _ _ _ _)). apply cut_state; try reflexivity; [now apply C|now left].
Qed.
Lemma res_cut room max d : RSZ + max * DSZ <= room -> max <= 100 -> wf max d -> Forall (cutpiece room) (res_pieces d).
Proof.
  intros R M (_ & _ & F). apply Forall_app in F as [F1 F]. apply Forall_app in F as [F2 F]. apply Forall_app in F as [F3 F4].
  assert (T : forall ln rs, Forall (wf_res max) rs -> Forall (cutpiece room) (concat (map (tok_pieces ln) rs))).
  { intros ln rs H. induction H as [|r rs W _ IH]; [constructor|]. cbn [map concat]. apply Forall_app. split; [|exact IH].
    unfold tok_pieces. rewrite Forall_map. pose proof W as (_ & _ & _ & _ & _ & _ & _ & _ & _ & TT). eapply Forall_impl; [|exact TT].
    intros t [P _]. eapply cut_res; eauto. }
  unfold res_pieces. repeat (apply Forall_app; split); auto; rewrite Forall_map; (eapply Forall_impl; [|eassumption]); intros r W; eapply cut_res; eauto; apply W.
Qed.
Lemma receive_nil fuel room : receive fuel room [] = ([], false).
Proof. destruct fuel; reflexivity. Qed.
Lemma receive_cut room ps es : Forall2 (piece room) ps es -> Forall (cutpiece room) ps ->
  forall k fuel, length (firstn k (concat ps)) <= fuel ->
  exists n x, receive fuel room (firstn k (concat ps)) = (firstn n es ++ x, false) /\ length x <= 1.
Proof.
  induction 1 as [|p e ps es H F2 IH]; intros CP k fuel L.
  - exists 0, []. cbn [concat]. rewrite firstn_nil, receive_nil. cbn. auto.
  - inversion CP as [|? ? C1 C2]; subst. cbn [concat] in *. pose proof (piece_length room p e H) as PL.
    destruct (Nat.le_gt_cases (length p) k) as [G|G].
    + rewrite firstn_over in * by exact G. rewrite app_length in L. destruct fuel as [|fuel]; [lia|]. cbn [receive]. rewrite H.
      destruct (IH C2 (k - length p) fuel) as (n & x & E & LX); [lia|]. rewrite E. exists (S n), x. auto.
    + rewrite firstn_app in *. replace (k - length p) with 0 in * by lia. rewrite firstn_O, app_nil_r in *.
      destruct fuel as [|fuel].
      * destruct (firstn k p); [|cbn in L; lia]. exists 0, []. cbn. auto.
      * cbn [receive]. destruct (C1 k G) as [E|[e' E]]; rewrite E.
        -- exists 0, []. cbn. auto.
        -- rewrite receive_nil. exists 0, [e']. cbn. auto.
Qed.
Lemma print_st_one e : length (print_st e) <= 1.
Proof. unfold print_st. repeat (match goal with |- context [if ?c then _ else _] => destruct c end; [cbn; lia|]). cbn. lia. Qed.

(* Whenever the connection ends: a beginning of what is to be shown, and one more line at most. *)
Theorem C78_cut d k : wf 3 d -> exists n x, length x <= 1 /\ status NoSort (firstn k (stream d)) = mkO (firstn n (show d) ++ x) false 0.
Proof.
  intros W. assert (RM : RSZ + 3 * DSZ <= MAXSTR) by (rewrite maxstr_val, dsz_val; unfold RSZ; lia).
  pose proof (entries_ok 3 d ltac:(lia) W) as F.
  unfold status. rewrite stream_pieces.
  assert (P0 : forall rest, rx1 MAXSTR (send_daemon d ++ rest) = RxEntry (ent_daemon d) rest) by (intros; apply rx_daemon).
  assert (PS : Forall2 (piece MAXSTR) (send_daemon d :: ls_pieces d ++ res_pieces d) (entries d)).
  { unfold entries. constructor; [exact P0|]. apply Forall2_app; [eapply ls_rx; eauto|eapply res_rx; eauto; lia]. }
  assert (CS : Forall (cutpiece MAXSTR) (send_daemon d :: ls_pieces d ++ res_pieces d)).
  { constructor; [|apply Forall_app; split; [eapply ls_cut; eauto|eapply res_cut; eauto; lia]].
    unfold send_daemon. rewrite <- (app_nil_r (send_state _ _ _ _ _)). apply cut_state; try reflexivity. now left. }
  destruct (receive_cut MAXSTR _ _ PS CS k _ (Nat.le_refl _)) as (n & x & E & LX).
  rewrite E, print_all_app. exists n, (print_all x). split.
  - destruct x as [|e [|]]; [cbn; lia| |cbn in LX; lia]. unfold print_all. cbn [map concat]. rewrite app_nil_r. apply print_st_one.
  - f_equal. f_equal. clear -F. revert n. induction F as [|e l es ls [P _] _ IH]; intros n; [destruct n; reflexivity|].
    destruct n; [reflexivity|]. unfold print_all. cbn [firstn map concat]. rewrite P. cbn [app]. f_equal. apply IH.
Qed.

(* ---- names for host_status ---- *)
Definition all_spaces (d : daemon) : list space := dm_spaces d ++ dm_sadd d ++ dm_srem d.
Lemma filter_all {A} (p : A -> bool) l : (forall x, In x l -> p x = true) -> filter p l = l.
Proof. induction l as [|x l IH]; intros H; [reflexivity|]. cbn. rewrite H by now left. f_equal. apply IH. intros; apply H; now right. Qed.
Lemma ls_ents_spaces d : map (fun e => upto_nul (e_bin e)) (filter (is_type T_LOCKSPACE) (ent_daemon d :: ls_ents d)) =
  map (fun s => upto_nul (ls_bin s)) (all_spaces d).
Proof.
  cbn [filter]. change (is_type T_LOCKSPACE (ent_daemon d)) with false. cbv iota.
  unfold ls_ents, all_spaces. rewrite !filter_app, !map_app.
  rewrite filter_none by (intros x I; apply in_map_iff in I as (c & <- & _); reflexivity). cbn [map app].
  assert (Q : forall ln l, map (fun e => upto_nul (e_bin e)) (filter (is_type T_LOCKSPACE) (map (ent_space ln) l)) = map (fun s => upto_nul (ls_bin s)) l).
  { intros ln l. rewrite filter_all by (intros x I; apply in_map_iff in I as (c & <- & _); reflexivity). rewrite map_map. reflexivity. }
  rewrite !Q. reflexivity.
Qed.
Lemma hosts_value max d : wf max d ->
  host_status_names (ls_stream d) = if MAX_SORT <? length (all_spaces d) then None else Some (map (fun s => upto_nul (ls_bin s)) (all_spaces d)).
Proof.
  intros W. unfold host_status_names. rewrite (receive_ls MAXSTR max d W). cbv zeta. rewrite ls_ents_spaces, map_length. reflexivity.
Qed.
Lemma short_name s : length (upto_nul (sp_name s)) < 48 -> upto_nul (ls_bin s) = upto_nul (sp_name s).
Proof.
  intros L. unfold ls_bin, strncpy48. pose proof (upto_nul_idem (sp_name s)) as N. set (u := upto_nul (sp_name s)) in *.
  rewrite firstn_over by lia. replace (48 - length u) with (S (47 - length u)) by lia. cbn [repeat firstn].
  rewrite <- app_assoc. cbn [app]. now apply upto_nul_no.
Qed.
Theorem C78_hosts_partial d : wf 4 d -> (N.of_nat (length (all_spaces d)) <= 1024)%N ->
  (forall s, In s (all_spaces d) -> length (upto_nul (sp_name s)) < 48) ->
  exists ns, host_status_names (ls_stream d) = Some ns /\
  map host_status_query ns = map (fun s => name_of (sp_name s)) (all_spaces d) /\
  Forall2 (fun n s => found (host_status_query n) s = true) ns (all_spaces d).
Proof.
  intros W L SH. rewrite (hosts_value 4 d W). replace (MAX_SORT <? length (all_spaces d)) with false
    by (symmetry; apply Nat.ltb_ge; rewrite max_sort_val; lia).
  eexists. split; [reflexivity|].
  assert (Q : forall s, In s (all_spaces d) -> host_status_query (upto_nul (ls_bin s)) = name_of (sp_name s)).
  { intros s I. specialize (SH s I). rewrite short_name by exact SH. unfold host_status_query, name_of. rewrite !firstn_all2 by lia. reflexivity. }
  split; [rewrite map_map; apply map_ext_in; exact Q|].
  revert Q. generalize (all_spaces d) as l. induction l as [|s l IH]; intros Q; [constructor|]. cbn [map]. constructor; [|apply IH; intros; apply Q; now right].
  rewrite Q by now left. unfold found. rewrite eqb_bytes_dec. unfold pname, name_of. destruct (list_eq_dec _ _ _); congruence.
Qed.
(* more lockspaces than sort_bufs has room for: it is written behind its end *)
Theorem C78_hosts_many d : wf 4 d -> (1024 < N.of_nat (length (all_spaces d)))%N -> host_status_names (ls_stream d) = None.
Proof.
  intros W L. rewrite (hosts_value 4 d W). replace (MAX_SORT <? length (all_spaces d)) with true; [reflexivity|].
  symmetry. apply Nat.ltb_lt. rewrite max_sort_val. lia.
Qed.

(* ---- examples and what fails ---- *)
Definition ex_path (s : string) : bytes := txt s ++ repeat 0%N (N.to_nat 1024 - length (txt s)).
Definition ex_disk (s : string) (o : N) : disk := mkDk (ex_path s) o (repeat 0%N 8).
Definition ex_name (s : string) : bytes := txt s ++ repeat 0%N (48 - length (txt s)).
Definition ex_space (n : string) : space := mkSp (txt n) 7 (ex_disk "/dev/x:y" 0) (repeat (txt "1") 20).
Definition ex_res (n : string) (fl : N) (ds : list disk) (ts : list token) : resource :=
  mkRs (ex_name "ls") (ex_name n) (repeat 0%N 24) fl ds 5 ts 11 (repeat (txt "1") 6).
Definition ex_d (ds : list disk) : daemon :=
  mkDm (txt "host1") (txt "our_host_name=host1") [mkCl true 11 (txt "prog") []; mkCl false 0 [] []; mkCl true PID_NONE (txt "listener") []]
       [ex_space "ls"] [ex_space "l2"] []
       [ex_res "r1" 0 [ex_disk "/dev/x" 1048576] [mkTk 11 (txt "1")]; ex_res "r2" 4 ds [mkTk 11 (txt "2"); mkTk 12 (txt "3")]] [] []
       [ex_res "r3" 0 [ex_disk "/dev/x" 2097152] []].
Ltac concrete_wf :=
  unfold wf; cbn [ex_d dm_clients dm_spaces dm_sadd dm_srem dm_held dm_radd dm_rrem dm_orphan app];
  split; [|split]; repeat (apply Forall_cons || apply Forall_nil);
  repeat match goal with
  | |- _ /\ _ => split
  | |- wf_disk _ => unfold wf_disk
  | |- wf_client _ => unfold wf_client
  | |- wf_space _ => unfold wf_space
  | |- wf_res _ _ => unfold wf_res
  | |- plain _ => unfold plain
  | |- Forall _ _ => apply Forall_cons || apply Forall_nil
  | |- ~ _ => cbn; intuition discriminate
  | |- @eq nat _ _ => vm_compute; reflexivity
  | |- (_ <= _)%nat => cbn; lia
  | |- (_ < _)%N => vm_compute; reflexivity
  end.
Lemma ex_wf3 : wf 3 (ex_d [ex_disk "/dev/a" 0; ex_disk "/dev/b" 0]).
Proof. concrete_wf. Qed.
Lemma ex_wf4 : wf 4 (ex_d [ex_disk "/dev/a" 0; ex_disk "/dev/b" 0; ex_disk "/dev/c" 0; ex_disk "/dev/d" 0]).
Proof. concrete_wf. Qed.
Example C78_nonvacuous :
  wf 3 (ex_d [ex_disk "/dev/a" 0; ex_disk "/dev/b" 0]) /\ length (show (ex_d [ex_disk "/dev/a" 0; ex_disk "/dev/b" 0])) = 9 /\
  nth 8 (by_pid (show (ex_d []))) LnCannot = LnDash.
Proof. split; [exact ex_wf3|]. split; vm_compute; reflexivity. Qed.

(* four disks, which sanlock allows: the bytes received go behind the end of the array *)
Theorem C78_status_refuted : ~ C78_status_statement.
Proof.
  intros H. specialize (H _ ex_wf4). apply (f_equal o_ub) in H. vm_compute in H. discriminate.
Qed.
Theorem C78_complete_refuted : ~ C78_complete_statement.
Proof. intros H. specialize (H _ 0 ex_wf3 eq_refl). discriminate. Qed.
(* the connection ends before the last record: a lockspace without a name is shown *)
Definition ex_one : daemon := mkDm (txt "host1") [] [] [ex_space "ls"] [] [] [] [] [] [].
Lemma ex_one_wf : wf 3 ex_one.
Proof. unfold ex_one. concrete_wf. Qed.
Theorem C78_true_refuted : ~ C78_true_statement.
Proof.
  intros H. specialize (H ex_one (length (stream ex_one) - LSZ) (LnSpace [] 0 [] 0 None) ex_one_wf).
  assert (I : In (LnSpace [] 0 [] 0 None) (o_lines (status NoSort (firstn (length (stream ex_one) - LSZ) (stream ex_one))))).
  { vm_compute. auto. }
  specialize (H I). vm_compute in H. intuition discriminate.
Qed.
(* 1025 programs *)
Definition ex_many : daemon :=
  mkDm (txt "host1") [] (repeat (mkCl true 11 (txt "prog") []) (N.to_nat 1025)) [] [] [] [] [] [] [].
Lemma repeat_all {A} (P : A -> Prop) x n : P x -> Forall P (repeat x n).
Proof. intros H. induction n; cbn; constructor; auto. Qed.
Lemma ex_many_wf : wf 4 ex_many.
Proof. split; [|split; constructor]. cbn [ex_many dm_clients]. apply repeat_all. reflexivity. Qed.
Theorem C78_sorted_refuted : ~ C78_sorted_statement.
Proof.
  intros H. destruct (H ex_many ex_many_wf) as [H1 _].
  destruct (C78_many ex_many SortP ex_many_wf) as [H2 _]; [|discriminate|].
  - unfold show, ex_many. cbn [dm_clients dm_spaces dm_sadd dm_srem dm_held dm_radd dm_rrem dm_orphan map flat_map app].
    rewrite app_nil_r. cbn [length]. rewrite map_length, filter_all, repeat_length; [reflexivity|]. intros x I. now apply repeat_spec in I as ->.
  - rewrite H2 in H1. discriminate H1.
Qed.
(* a name that fills its 48 characters *)
Definition ex_long : daemon :=
  mkDm (txt "host1") [] [] [ex_space "aaaaaaaaaaaaaaaaaaaaaaaaaaaaaaaaaaaaaaaaaaaaaaaa"] [] [] [] [] [] [].
Lemma ex_long_wf : wf 4 ex_long.
Proof. unfold ex_long. concrete_wf. Qed.
Theorem C78_hosts_refuted : ~ C78_hosts_statement.
Proof.
  intros H. destruct (H ex_long ex_long_wf) as (ns & E & Q).
  rewrite (hosts_value 4 ex_long ex_long_wf) in E. vm_compute in E. injection E as <-. vm_compute in Q. discriminate.
Qed.
(* ... and no lockspace is found under the name that is asked for *)
Example ex_long_not_found : match host_status_names (ls_stream ex_long) with
  | Some ns => map (fun n => existsb (found (host_status_query n)) (all_spaces ex_long)) ns = [false] | None => False end.
Proof. vm_compute. reflexivity. Qed.

Print Assumptions C78_status_partial.
Print Assumptions C78_status_refuted.
Print Assumptions C78_sorted_partial.
Print Assumptions C78_sorted_all.
Print Assumptions C78_many.
Print Assumptions C78_sorted_refuted.
Print Assumptions C78_cut.
Print Assumptions C78_complete_refuted.
Print Assumptions C78_true_refuted.
Print Assumptions C78_hosts_partial.
Print Assumptions C78_hosts_many.
Print Assumptions C78_hosts_refuted.
