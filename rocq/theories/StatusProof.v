(* Lemmas about StatusOut.v: encoding and decoding, the state string, the loop that receives *)
From Coq Require Import Ascii String List NArith ZArith Lia Bool Arith.
From Verif Require Import Bytes Strings StatusOut.
Import ListNotations.
Open Scope nat_scope.

(* ---- taking members out of concatenations ---- *)
Lemma get_here n a b : length a = n -> get 0 n (a ++ b) = a.
Proof. intros <-. unfold get. cbn. rewrite firstn_app, Nat.sub_diag, firstn_all. cbn. apply app_nil_r. Qed.
Lemma get_all n a : length a = n -> get 0 n a = a.
Proof. intros <-. unfold get. cbn. apply firstn_all. Qed.
Lemma get_skip off n a b : length a <= off -> get off n (a ++ b) = get (off - length a) n b.
Proof. intros L. unfold get. rewrite skipn_app, skipn_all2 by exact L. reflexivity. Qed.
Lemma firstn_here {A} n (a b : list A) : length a = n -> firstn n (a ++ b) = a.
Proof. intros <-. rewrite firstn_app, Nat.sub_diag, firstn_all. apply app_nil_r. Qed.
Lemma skipn_here {A} n (a b : list A) : length a = n -> skipn n (a ++ b) = b.
Proof. intros <-. rewrite skipn_app, Nat.sub_diag, skipn_all. reflexivity. Qed.

Lemma strncpy48_length s : length (strncpy48 s) = 48.
Proof. unfold strncpy48. rewrite firstn_length, app_length, repeat_length. lia. Qed.
Lemma enc_state_length ty a b n l : length n = 48 -> length (enc_state ty a b n l) = 80.
Proof. intros E. unfold enc_state. rewrite !app_length, !le_enc_length, !repeat_length, E. reflexivity. Qed.

Lemma state_type ty a b n l : (ty < 2 ^ 32)%N -> le_dec (get 0 4 (enc_state ty a b n l)) = ty.
Proof. intros H. unfold enc_state. rewrite get_here by apply le_enc_length. now apply le_dec_enc_small. Qed.
Lemma state_d32 ty a b n l : (a < 2 ^ 32)%N -> le_dec (get 8 4 (enc_state ty a b n l)) = a.
Proof.
  intros H. unfold enc_state. rewrite get_skip by (rewrite le_enc_length; lia). rewrite le_enc_length. cbn [Nat.sub].
  rewrite get_skip by (rewrite le_enc_length; lia). rewrite le_enc_length. cbn [Nat.sub].
  rewrite get_here by apply le_enc_length. now apply le_dec_enc_small.
Qed.
Lemma state_d64 ty a b n l : (b < 2 ^ 64)%N -> le_dec (get 16 8 (enc_state ty a b n l)) = b.
Proof.
  intros H. unfold enc_state.
  do 3 (rewrite get_skip by (rewrite le_enc_length; lia); rewrite le_enc_length; cbn [Nat.sub]).
  rewrite get_skip by (rewrite repeat_length; lia). rewrite repeat_length. cbn [Nat.sub].
  rewrite get_here by apply le_enc_length. now apply le_dec_enc_small.
Qed.
Lemma state_name ty a b n l : length n = 48 -> get 24 48 (enc_state ty a b n l) = n.
Proof.
  intros H. unfold enc_state.
  do 3 (rewrite get_skip by (rewrite le_enc_length; lia); rewrite le_enc_length; cbn [Nat.sub]).
  rewrite get_skip by (rewrite repeat_length; lia). rewrite repeat_length. cbn [Nat.sub].
  rewrite get_skip by (rewrite le_enc_length; lia). rewrite le_enc_length. cbn [Nat.sub].
  now apply get_here.
Qed.
Lemma state_len ty a b n l : length n = 48 -> (N.of_nat l < 2 ^ 32)%N -> le_dec (get 72 4 (enc_state ty a b n l)) = N.of_nat l.
Proof.
  intros H B. unfold enc_state.
  do 3 (rewrite get_skip by (rewrite le_enc_length; lia); rewrite le_enc_length; cbn [Nat.sub]).
  rewrite get_skip by (rewrite repeat_length; lia). rewrite repeat_length. cbn [Nat.sub].
  rewrite get_skip by (rewrite le_enc_length; lia). rewrite le_enc_length. cbn [Nat.sub].
  rewrite get_skip by lia. rewrite H. cbn [Nat.sub]. rewrite get_here by apply le_enc_length. now apply le_dec_enc_small.
Qed.

Lemma maxstr_val : MAXSTR = N.to_nat 4096.  Proof. reflexivity. Qed.
Global Opaque MAXSTR DSZ LSZ MAX_SORT.
Lemma snp_length t : length (snp t) <= MAXSTR - 1 /\ 1 <= length (snp t).
Proof.
  unfold snp. rewrite app_length, firstn_length. cbn [length]. rewrite maxstr_val. lia.
Qed.

(* ---- one entry ---- *)
Definition ent (ty a b : N) (name text bin : bytes) : entry := mkE ty a b (strncpy48 name) (snp text) bin.
Lemma rx_state room ty a b name text s :
  (ty < 2 ^ 32)%N -> (a < 2 ^ 32)%N -> (b < 2 ^ 64)%N ->
  rx1 room (send_state ty a b name text ++ s) =
  match recv_bin room ty s with None => RxUB | Some (bin, rest) => RxEntry (ent ty a b name text bin) rest end.
Proof.
  intros Ht Ha Hb. unfold send_state, rx1. cbv zeta. set (H := enc_state _ _ _ _ _).
  assert (LH : length H = 80) by (apply enc_state_length, strncpy48_length).
  destruct (snp_length text) as [U1 U2].
  replace (length ((H ++ snp text) ++ s) <? 80) with false by (symmetry; apply Nat.ltb_ge; rewrite !app_length; lia).
  rewrite <- app_assoc. rewrite firstn_here, skipn_here by exact LH.
  assert (SL : le_dec (get 72 4 H) = N.of_nat (length (snp text))).
  { apply state_len; [apply strncpy48_length|]. rewrite maxstr_val in U1. lia. }
  rewrite SL, Nat2N.id. replace (MAXSTR <? length (snp text)) with false by (symmetry; apply Nat.ltb_ge; lia).
  replace (length (snp text ++ s) <? length (snp text)) with false by (symmetry; apply Nat.ltb_ge; rewrite app_length; lia).
  rewrite skipn_here, firstn_here by reflexivity.
  unfold H. rewrite state_type, state_d32, state_d64, state_name by (auto using strncpy48_length). reflexivity.
Qed.

(* ---- the daemon's data ---- *)
Definition plain (v : bytes) : Prop := ~ In 61%N v /\ ~ In 0%N v.
Definition wf_disk (d : disk) : Prop := length (dk_path d) = DSZ - 16 /\ length (dk_pad d) = 8 /\ (dk_off d < 2 ^ 64)%N.
Definition wf_client (c : client) : Prop := (cl_pid c < 2 ^ 32)%N.
Definition wf_space (s : space) : Prop := (sp_id s < 2 ^ 64)%N /\ wf_disk (sp_disk s) /\ Forall plain (sp_vals s) /\ length (sp_vals s) = length ls_keys.
Definition wf_res (max : nat) (r : resource) : Prop :=
  length (rs_ls r) = 48 /\ length (rs_name r) = 48 /\ length (rs_mid r) = 24 /\ (rs_flags r < 2 ^ 32)%N /\
  Forall wf_disk (rs_disks r) /\ length (rs_disks r) <= max /\ (rs_lver r < 2 ^ 64)%N /\ (rs_pid r < 2 ^ 32)%N /\
  Forall plain (rs_vals r) /\ Forall (fun t => (tk_pid t < 2 ^ 32)%N /\ plain (tk_id t)) (rs_tokens r).
Definition wf (max : nat) (d : daemon) : Prop :=
  Forall wf_client (dm_clients d) /\ Forall wf_space (dm_spaces d ++ dm_sadd d ++ dm_srem d) /\
  Forall (wf_res max) (dm_held d ++ dm_radd d ++ dm_rrem d ++ dm_orphan d).

Lemma dsz_val : DSZ = N.to_nat 1040. Proof. reflexivity. Qed.
Lemma lsz_val : LSZ = N.to_nat 1104. Proof. reflexivity. Qed.
Lemma enc_disk_length d : wf_disk d -> length (enc_disk d) = DSZ.
Proof. intros (A & B & C). unfold enc_disk. rewrite !app_length, le_enc_length, A, B, dsz_val. lia. Qed.
Lemma disks_length ds : Forall wf_disk ds -> length (concat (map enc_disk ds)) = length ds * DSZ.
Proof.
  induction 1 as [|d ds W _ IH]; [reflexivity|]. cbn [map concat length]. rewrite app_length, IH, enc_disk_length by exact W. cbn. lia.
Qed.
Lemma enc_res_length max r : wf_res max r -> length (enc_res r) = RSZ.
Proof.
  intros (A & B & C & _). unfold enc_res. rewrite !app_length, !le_enc_length, A, B, C. reflexivity.
Qed.

Definition ls_bin (s : space) : bytes :=
  strncpy48 (sp_name s) ++ le_enc 8 (sp_id s) ++ le_enc 4 0 ++ repeat 0%N 4 ++ enc_disk (sp_disk s).
Definition res_bin (r : resource) : bytes := enc_res r ++ concat (map enc_disk (rs_disks r)).
Definition ent_daemon (d : daemon) : entry := ent T_DAEMON 0 0 (dm_name d) (dm_text d) [].
Definition ent_client (c : client) : entry := ent T_CLIENT (cl_pid c) 0 (cl_name c) (cl_text c) [].
Definition ent_space (ln : string) (s : space) : entry :=
  ent T_LOCKSPACE 0 (sp_id s) (sp_name s) (list_text ln ls_keys (sp_vals s)) (ls_bin s).
Definition ent_res (ln : string) (r : resource) (pid : N) (tid : bytes) : entry :=
  ent T_RESOURCE pid (rs_lver r) (rs_name r) (list_text ln res_keys (rs_vals r ++ [tid])) (res_bin r).

Lemma ls_bin_length s : wf_space s -> length (ls_bin s) = LSZ.
Proof.
  intros (_ & W & _). unfold ls_bin. rewrite !app_length, strncpy48_length, !le_enc_length, repeat_length, enc_disk_length by exact W.
  rewrite dsz_val, lsz_val. lia.
Qed.

Lemma rx_daemon room d rest : rx1 room (send_daemon d ++ rest) = RxEntry (ent_daemon d) rest.
Proof. unfold send_daemon. rewrite rx_state by reflexivity. reflexivity. Qed.
Lemma rx_client room c rest : wf_client c -> cl_used c = true -> rx1 room (send_client c ++ rest) = RxEntry (ent_client c) rest.
Proof. intros W U. unfold send_client. rewrite U, rx_state by (auto; reflexivity). reflexivity. Qed.
Lemma rx_space room ln s rest : wf_space s -> rx1 room (send_lockspace ln s ++ rest) = RxEntry (ent_space ln s) rest.
Proof.
  intros W. unfold send_lockspace. fold (ls_bin s). rewrite <- app_assoc, rx_state by (try reflexivity; apply W).
  unfold recv_bin. cbn [N.eqb T_LOCKSPACE]. rewrite Pos.eqb_refl. rewrite firstn_here, skipn_here by (now apply ls_bin_length). reflexivity.
Qed.
Lemma res_nd r max s : wf_res max r -> (N.of_nat (length (rs_disks r)) < 2 ^ 32)%N ->
  le_dec (get 124 4 (enc_res r ++ s)) = N.of_nat (length (rs_disks r)).
Proof.
  intros (A & B & C & _) D. unfold enc_res. rewrite <- !app_assoc.
  rewrite get_skip by lia. rewrite A. cbn [Nat.sub].
  rewrite get_skip by lia. rewrite B. cbn [Nat.sub].
  rewrite get_skip by lia. rewrite C. cbn [Nat.sub].
  rewrite get_skip by (rewrite le_enc_length; lia). rewrite le_enc_length. cbn [Nat.sub].
  rewrite get_here by apply le_enc_length. now apply le_dec_enc_small.
Qed.
Lemma rx_res room max ln r pid tid rest :
  wf_res max r -> (pid < 2 ^ 32)%N -> RSZ + max * DSZ <= room -> max <= 100 ->
  rx1 room (send_resource ln r pid tid ++ rest) = RxEntry (ent_res ln r pid tid) rest.
Proof.
  intros W P RM MX. unfold send_resource. rewrite <- app_assoc, rx_state by (try reflexivity; try exact P; apply W).
  unfold recv_bin. replace (N.eqb T_RESOURCE T_LOCKSPACE) with false by reflexivity. rewrite N.eqb_refl. cbv zeta.
  pose proof W as (A & B & C & F & D & L & _).
  rewrite <- app_assoc. rewrite (res_nd r max) by (auto; lia). rewrite Nat2N.id.
  rewrite skipn_here, firstn_here by (eapply enc_res_length; eauto).
  rewrite skipn_here, firstn_here by (now apply disks_length).
  replace (room <? _) with false; [reflexivity|]. symmetry. apply Nat.ltb_ge.
  assert (length (rs_disks r) * DSZ <= max * DSZ) by (apply Nat.mul_le_mono_r; exact L). lia.
Qed.

(* ---- the loop ---- *)
Definition piece (room : nat) (p : bytes) (e : entry) : Prop := forall rest, rx1 room (p ++ rest) = RxEntry e rest.
Lemma rx_end room : rx1 room [] = RxEnd. Proof. reflexivity. Qed.
Lemma receive_pieces room ps es : Forall2 (piece room) ps es -> forall fuel, length ps < fuel -> receive fuel room (concat ps) = (es, false).
Proof.
  induction 1 as [|p e ps es H _ IH]; intros fuel F.
  - destruct fuel; [lia|]. reflexivity.
  - destruct fuel as [|fuel]; [cbn in F; lia|]. cbn [concat receive]. rewrite H, IH by (cbn in F; lia). reflexivity.
Qed.
Lemma piece_length room p e : piece room p e -> 80 <= length p.
Proof.
  intros H. specialize (H []). rewrite app_nil_r in H. unfold rx1 in H. destruct (length p <? 80) eqn:E; [discriminate|]. now apply Nat.ltb_ge in E.
Qed.
Lemma pieces_length room ps es : Forall2 (piece room) ps es -> 80 * length ps <= length (concat ps).
Proof.
  induction 1 as [|p e ps es H _ IH]; [auto|]. cbn [concat length]. rewrite app_length. apply piece_length in H. lia.
Qed.
Lemma receive_all room p0 e0 ps es : piece room p0 e0 -> Forall2 (piece room) ps es ->
  receive (length (concat (p0 :: ps))) room (concat (p0 :: ps)) = (e0 :: es, false).
Proof.
  intros H0 H. apply receive_pieces; [constructor; auto|].
  assert (Q := pieces_length room (p0 :: ps) (e0 :: es) (Forall2_cons _ _ H0 H)). cbn [length] in *. lia.
Qed.

(* ---- the whole answer ---- *)
Definition tok_pieces (ln : string) (r : resource) : list bytes := map (fun t => send_resource ln r (tk_pid t) (tk_id t)) (rs_tokens r).
Definition tok_ents (ln : string) (r : resource) : list entry := map (fun t => ent_res ln r (tk_pid t) (tk_id t)) (rs_tokens r).
Definition ls_pieces (d : daemon) : list bytes :=
  map send_client (filter cl_used (dm_clients d)) ++ map (send_lockspace "spaces") (dm_spaces d) ++
  map (send_lockspace "add") (dm_sadd d) ++ map (send_lockspace "rem") (dm_srem d).
Definition ls_ents (d : daemon) : list entry :=
  map ent_client (filter cl_used (dm_clients d)) ++ map (ent_space "spaces") (dm_spaces d) ++
  map (ent_space "add") (dm_sadd d) ++ map (ent_space "rem") (dm_srem d).
Definition res_pieces (d : daemon) : list bytes :=
  concat (map (tok_pieces "held") (dm_held d)) ++ concat (map (tok_pieces "add") (dm_radd d)) ++
  map (fun r => send_resource "rem" r (rs_pid r) (txt "0")) (dm_rrem d) ++
  map (fun r => send_resource "orphan" r (rs_pid r) (txt "0")) (dm_orphan d).
Definition res_ents (d : daemon) : list entry :=
  concat (map (tok_ents "held") (dm_held d)) ++ concat (map (tok_ents "add") (dm_radd d)) ++
  map (fun r => ent_res "rem" r (rs_pid r) (txt "0")) (dm_rrem d) ++
  map (fun r => ent_res "orphan" r (rs_pid r) (txt "0")) (dm_orphan d).
Definition entries (d : daemon) : list entry := ent_daemon d :: ls_ents d ++ res_ents d.

Lemma concat_used cs : concat (map send_client cs) = concat (map send_client (filter cl_used cs)).
Proof.
  induction cs as [|c cs IH]; [reflexivity|]. cbn [map concat filter]. rewrite IH. unfold send_client at 1.
  destruct (cl_used c) eqn:U; [|reflexivity]. cbn [map concat]. f_equal. unfold send_client. now rewrite U.
Qed.
Lemma concat_tok ln rs : concat (map (per_token ln) rs) = concat (concat (map (tok_pieces ln) rs)).
Proof.
  induction rs as [|r rs IH]; [reflexivity|]. cbn [map concat]. rewrite concat_app, IH. reflexivity.
Qed.
Lemma ls_stream_pieces d : ls_stream d = concat (send_daemon d :: ls_pieces d).
Proof.
  unfold ls_stream, ls_pieces. cbn [concat]. rewrite !concat_app, concat_used. reflexivity.
Qed.
Lemma stream_pieces d : stream d = concat (send_daemon d :: ls_pieces d ++ res_pieces d).
Proof.
  unfold stream, ls_pieces, res_pieces. cbn [concat]. rewrite !concat_app, concat_used, !concat_tok, <- !app_assoc. reflexivity.
Qed.

Lemma Forall2_map {A} (P : bytes -> entry -> Prop) (f : A -> bytes) (g : A -> entry) l :
  Forall (fun x => P (f x) (g x)) l -> Forall2 P (map f l) (map g l).
Proof. induction 1; constructor; auto. Qed.
Lemma Forall2_concat (P : bytes -> entry -> Prop) l : forall m, Forall2 (Forall2 P) l m -> Forall2 P (concat l) (concat m).
Proof. induction 1; cbn; auto. apply Forall2_app; auto. Qed.

Lemma ls_rx room max d : wf max d -> Forall2 (piece room) (ls_pieces d) (ls_ents d).
Proof.
  intros (C & S & _). unfold ls_pieces, ls_ents. apply Forall_app in S as [S1 S]. apply Forall_app in S as [S2 S3].
  repeat apply Forall2_app; apply Forall2_map.
  - apply Forall_forall. intros c I. apply filter_In in I as [I U]. intros rest. apply rx_client; auto. rewrite Forall_forall in C. now apply C.
  - eapply Forall_impl; [|exact S1]. intros s W rest. now apply rx_space.
  - eapply Forall_impl; [|exact S2]. intros s W rest. now apply rx_space.
  - eapply Forall_impl; [|exact S3]. intros s W rest. now apply rx_space.
Qed.
Lemma tok_rx room max ln rs : RSZ + max * DSZ <= room -> max <= 100 -> Forall (wf_res max) rs ->
  Forall2 (piece room) (concat (map (tok_pieces ln) rs)) (concat (map (tok_ents ln) rs)).
Proof.
  intros R M F. apply Forall2_concat. induction F as [|r rs W _ IH]; [constructor|]. cbn [map]. constructor; [|exact IH].
  apply Forall2_map. pose proof W as (_ & _ & _ & _ & _ & _ & _ & _ & _ & T). eapply Forall_impl; [|exact T].
  intros t [P _] rest. eapply rx_res; eauto.
Qed.
Lemma res_rx room max d : RSZ + max * DSZ <= room -> max <= 100 -> wf max d -> Forall2 (piece room) (res_pieces d) (res_ents d).
Proof.
  intros R M (_ & _ & F). apply Forall_app in F as [F1 F]. apply Forall_app in F as [F2 F]. apply Forall_app in F as [F3 F4].
  unfold res_pieces, res_ents. apply Forall2_app; [eapply tok_rx; eauto|]. apply Forall2_app; [eapply tok_rx; eauto|].
  apply Forall2_app; apply Forall2_map.
  - eapply Forall_impl; [|exact F3]. intros r W rest. eapply rx_res; eauto. apply W.
  - eapply Forall_impl; [|exact F4]. intros r W rest. eapply rx_res; eauto. apply W.
Qed.
Lemma receive_stream room max d : RSZ + max * DSZ <= room -> max <= 100 -> wf max d ->
  receive (length (stream d)) room (stream d) = (entries d, false).
Proof.
  intros R M W. rewrite stream_pieces. apply receive_all.
  - intros rest. apply rx_daemon.
  - apply Forall2_app; [eapply ls_rx|eapply res_rx]; eauto.
Qed.
Lemma receive_ls room max d : wf max d -> receive (length (ls_stream d)) room (ls_stream d) = (ent_daemon d :: ls_ents d, false).
Proof.
  intros W. rewrite ls_stream_pieces. apply receive_all; [intros rest; apply rx_daemon|eapply ls_rx; eauto].
Qed.

(* ---- the state string ---- *)
Lemma strstr_occ s p : strstr s p = true -> exists a b, s = a ++ p ++ b.
Proof.
  assert (P : forall p s, prefix p s = true -> exists b, s = p ++ b).
  { clear. induction p as [|x p IH]; intros s H; [exists s; reflexivity|]. destruct s as [|y s]; [discriminate|]. cbn in H.
    apply andb_prop in H as [E H]. apply N.eqb_eq in E. subst y. destruct (IH s H) as [b ->]. exists b. reflexivity. }
  induction s as [|x s IH]; intros H.
  - cbn in H. rewrite orb_false_r in H. destruct (P p [] H) as [b E]. exists [], b. exact E.
  - cbn [strstr] in H. apply orb_prop in H as [H|H].
    + destruct (P p _ H) as [b E]. exists [], b. exact E.
    + destruct (IH H) as (a & b & ->). exists (x :: a), b. reflexivity.
Qed.
Lemma split_first {A} (c : A) x y x' y' : ~ In c x -> ~ In c x' -> x ++ c :: y = x' ++ c :: y' -> x = x' /\ y = y'.
Proof.
  revert x'. induction x as [|a x IH]; intros x' N N' E; destruct x' as [|a' x']; cbn in E.
  - injection E as ->. auto.
  - injection E as -> _. exfalso. apply N'. now left.
  - injection E as <- _. exfalso. apply N. now left.
  - injection E as <- E. destruct (IH x') as [-> ->]; auto; intros I; [apply N|apply N']; now right.
Qed.
Definition IST : bytes := txt "ist".
Definition key_ok (k : string) : bool :=
  negb (existsb (N.eqb 61) (txt k)) && negb (existsb (N.eqb 0) (txt k)) && (3 <=? length (txt k)) && negb (prefix (rev IST) (rev (txt k))).
Lemma prefix_app p s t : prefix p (s ++ t) = true -> length p <= length s -> prefix p s = true.
Proof.
  revert s. induction p as [|x p IH]; intros s H L; [reflexivity|]. destruct s as [|y s]; [cbn in L; lia|]. cbn in H |- *.
  apply andb_prop in H as [-> H]. cbn in L. rewrite IH; auto; lia.
Qed.
Lemma prefix_refl p t : prefix p (p ++ t) = true.
Proof. induction p; cbn; [reflexivity|]. now rewrite N.eqb_refl. Qed.
Lemma existsb_In c l : existsb (N.eqb c) l = false -> ~ In c l.
Proof.
  intros H I. assert (existsb (N.eqb c) l = true) by (apply existsb_exists; exists c; split; [exact I|apply N.eqb_refl]). congruence.
Qed.
Lemma fields_no_ist ks : forallb key_ok ks = true -> forall vs w a b, ~ In 61%N w -> Forall plain vs ->
  w ++ fields ks vs = a ++ IST ++ 61%N :: b -> False.
Proof.
  induction ks as [|k ks IH]; intros K vs w a b NW F E.
  - cbn in E. rewrite app_nil_r in E. apply NW. rewrite E. apply in_or_app; right. cbn. auto.
  - destruct vs as [|v vs].
    { cbn in E. rewrite app_nil_r in E. apply NW. rewrite E. apply in_or_app; right. cbn. auto. }
    cbn [forallb] in K. apply andb_prop in K as [K1 K2]. unfold key_ok in K1. apply andb_prop in K1 as [K1 K5]. apply andb_prop in K1 as [K1 K4].
    apply andb_prop in K1 as [K1 _]. apply negb_true_iff in K1, K5. apply existsb_In in K1. apply Nat.leb_le in K4.
    inversion F as [|? ? [V1 V2] F']; subst.
    assert (E2 : (w ++ 32%N :: txt k) ++ 61%N :: (v ++ fields ks vs) = a ++ IST ++ 61%N :: b).
    { rewrite <- E. cbn [fields]. cbn [txt app]. rewrite <- !app_assoc. reflexivity. }
    assert (NX : ~ In 61%N (w ++ 32%N :: txt k)).
    { intros I. apply in_app_or in I as [I|[I|I]]; [auto|discriminate|auto]. }
    destruct (in_dec N.eq_dec 61%N a) as [Ia|Na].
    + assert (SP : exists a1 a2, a = a1 ++ 61%N :: a2 /\ ~ In 61%N a1).
      { clear -Ia. induction a as [|x a IHa]; [destruct Ia|]. destruct (N.eq_dec x 61) as [->|NE].
        - exists [], a. auto.
        - destruct Ia as [?|Ia]; [congruence|]. destruct (IHa Ia) as (a1 & a2 & -> & N1). exists (x :: a1), a2. split; auto.
          intros [?|?]; [congruence|auto]. }
      destruct SP as (a1 & a2 & -> & N1). 
      replace ((a1 ++ 61%N :: a2) ++ IST ++ 61%N :: b) with (a1 ++ 61%N :: (a2 ++ IST ++ 61%N :: b)) in E2 by (rewrite <- app_assoc; reflexivity).
      destruct (split_first _ _ _ _ _ NX N1 E2) as [_ E3]. exact (IH K2 vs v a2 b V1 F' E3).
    + rewrite app_assoc in E2. assert (NY : ~ In 61%N (a ++ IST)).
      { intros I. apply in_app_or in I as [I|I]; [auto|]. cbn in I. intuition discriminate. }
      destruct (split_first _ _ _ _ _ NX NY E2) as [E3 _].
      assert (R : rev (txt k) ++ 32%N :: rev w = rev IST ++ rev a).
      { rewrite <- rev_app_distr, <- E3, rev_app_distr. cbn [rev]. rewrite <- app_assoc. reflexivity. }
      assert (Q : prefix (rev IST) (rev (txt k) ++ 32%N :: rev w) = true) by (rewrite R; apply prefix_refl).
      apply prefix_app in Q; [congruence|]. rewrite !rev_length. exact K4.
Qed.

Lemma fields_nul ks : forallb key_ok ks = true -> forall vs, Forall plain vs -> ~ In 0%N (fields ks vs).
Proof.
  induction ks as [|k ks IH]; intros K vs F I; [destruct I|]. destruct vs as [|v vs]; [destruct I|].
  cbn [forallb] in K. apply andb_prop in K as [K1 K2]. unfold key_ok in K1. apply andb_prop in K1 as [K1 K5]. apply andb_prop in K1 as [K1 K4].
  apply andb_prop in K1 as [_ K1]. apply negb_true_iff in K1. apply existsb_In in K1. inversion F as [|? ? [V1 V2] F']; subst.
  cbn [fields txt app] in I. destruct I as [I|I]; [discriminate|]. apply in_app_or in I as [I|[I|I]]; [auto|discriminate|].
  apply in_app_or in I as [I|I]; [auto|]. exact (IH K2 vs F' I).
Qed.
Lemma upto_nul_no l t : ~ In 0%N l -> upto_nul (l ++ 0%N :: t) = l.
Proof.
  induction l as [|x l IH]; intros N; [reflexivity|]. cbn. destruct (N.eqb_spec x 0) as [->|NE]; [exfalso; apply N; now left|].
  f_equal. apply IH. intros I. apply N. now right.
Qed.

(* the names of the lists *)
Definition known (ln : string) : Prop := In ln ["spaces"; "held"; "add"; "rem"; "orphan"]%string.
Definition mark_of (ln : string) : option mark :=
  if String.eqb ln "add" then Some MAdd else if String.eqb ln "rem" then Some MRem else if String.eqb ln "orphan" then Some MOrphan else None.
Lemma strstr_firstn n s p : strstr (firstn n s) p = true -> strstr s p = true.
Proof.
  intros H. apply strstr_occ in H as (a & b & E). rewrite <- (firstn_skipn n s), E, <- !app_assoc.
  clear. induction a as [|x a IH]; cbn [app].
  - destruct p; cbn; [destruct (b ++ _); reflexivity|]. rewrite N.eqb_refl, prefix_refl. reflexivity.
  - cbn [strstr]. rewrite IH. apply orb_true_r.
Qed.
Lemma strstr_prefix s p : prefix p s = true -> strstr s p = true.
Proof. intros H. destruct s; cbn [strstr]; rewrite H; reflexivity. Qed.
Lemma prefix_firstn p : forall n s, prefix p s = true -> length p <= n -> prefix p (firstn n s) = true.
Proof.
  induction p as [|x p IH]; intros n s H L; [reflexivity|]. destruct s as [|y s]; [discriminate|]. destruct n as [|n]; [cbn in L; lia|].
  cbn in H |- *. apply andb_prop in H as [-> H]. apply IH; auto. cbn in L. lia.
Qed.
(* nothing in the fields looks like a list name *)
Lemma fields_no_list ks vs ln : forallb key_ok ks = true -> Forall plain vs -> strstr (fields ks vs) (txt "list=" ++ ln) = false.
Proof.
  intros K F. destruct (strstr _ _) eqn:E; [|reflexivity]. exfalso. apply strstr_occ in E as (a & b & E).
  eapply (fields_no_ist ks K vs [] (a ++ [108%N]) (ln ++ b)); auto. cbn [app]. rewrite E, <- !app_assoc. reflexivity.
Qed.
Lemma add_rem_text ln ks vs : known ln -> forallb key_ok ks = true -> Forall plain vs -> ks <> [] -> vs <> [] ->
  add_rem (snp (list_text ln ks vs)) = mark_of ln.
Proof.
  intros KN K F NK NV.
  assert (NN : ~ In 0%N (list_text ln ks vs)).
  { intros I. unfold list_text in I. apply in_app_or in I as [I|I]; [cbn in I; intuition discriminate|].
    apply in_app_or in I as [I|I]; [|exact (fields_nul ks K vs F I)].
    unfold known in KN. cbn in KN. destruct KN as [<-|[<-|[<-|[<-|[<-|[]]]]]]; cbn in I; intuition discriminate. }
  assert (U : upto_nul (snp (list_text ln ks vs)) = firstn (MAXSTR - 2) (list_text ln ks vs)).
  { unfold snp. apply upto_nul_no. intros I. apply NN. rewrite <- (firstn_skipn (MAXSTR - 2)). apply in_or_app. now left. }
  unfold add_rem. rewrite U. destruct (snp (list_text ln ks vs)) as [|c0 r0] eqn:SE.
  { exfalso. unfold snp in SE. destruct (firstn _ _); discriminate SE. }
  clear SE U c0 r0.
  assert (FF : exists f, fields ks vs = 32%N :: f).
  { destruct ks as [|k ks]; [congruence|]. destruct vs as [|v vs]; [congruence|]. cbn. eauto. }
  assert (Y : forall p, prefix p (list_text ln ks vs) = true -> length p <= 20 -> strstr (firstn (MAXSTR - 2) (list_text ln ks vs)) p = true).
  { intros p H L. apply strstr_prefix, prefix_firstn; auto. rewrite maxstr_val. lia. }
  assert (Z : forall p, strstr (list_text ln ks vs) p = false -> strstr (firstn (MAXSTR - 2) (list_text ln ks vs)) p = false).
  { intros p H. destruct (strstr (firstn _ _) p) eqn:E; [|reflexivity]. apply strstr_firstn in E. congruence. }
  pose proof (fields_no_list ks vs (txt "add") K F) as N1. pose proof (fields_no_list ks vs (txt "rem") K F) as N2.
  pose proof (fields_no_list ks vs (txt "orphan") K F) as N3. cbn [txt app] in N1, N2, N3. cbn in N1, N2, N3.
  destruct FF as [f FE]. unfold known in KN. cbn in KN.
  destruct KN as [<-|[<-|[<-|[<-|[<-|[]]]]]]; cbn [mark_of String.eqb Ascii.eqb Bool.eqb].
  all: unfold list_text in *; rewrite FE in *.
  - rewrite !Z; [reflexivity| | |]; cbn; assumption.
  - rewrite !Z; [reflexivity| | |]; cbn; assumption.
  - rewrite Y; [reflexivity|reflexivity|cbn; lia].
  - rewrite Z; [|cbn; assumption]. rewrite Y; [reflexivity|reflexivity|cbn; lia].
  - rewrite Z; [|cbn; assumption]. rewrite Z; [|cbn; assumption]. rewrite Y; [reflexivity|reflexivity|cbn; lia].
Qed.
Lemma ls_keys_ok : forallb key_ok ls_keys = true. Proof. vm_compute. reflexivity. Qed.
Lemma res_keys_ok : forallb key_ok res_keys = true. Proof. vm_compute. reflexivity. Qed.
