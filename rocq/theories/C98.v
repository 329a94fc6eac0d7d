(* C98: the arguments of a library call that uses a connection of its own are those with which
   the daemon carries out the operation, and nothing that was sent is left unread.

   The specification says for every call of the library what is to be carried out
   (wanted), in the caller's own terms. *)
From Coq Require Import List NArith Lia Bool Arith.
From Verif Require Import Bytes MsgArgs.
Import ListNotations.
Open Scope nat_scope.

(* ---- what a caller may pass ---- *)
Definition u32 (v : N) : Prop := (v < 2 ^ 32)%N.
Definition u64 (v : N) : Prop := (v < 2 ^ 64)%N.
(* sanlock.h:55 "must include terminating \0" *)
Definition ok_disk (d : disk) : Prop := length (d_path d) = PATH_LEN /\ In 0%N (d_path d) /\ u64 (d_offset d) /\ u32 (d_pad1 d) /\ u32 (d_pad2 d).
Definition ok_ls (l : lspace) : Prop := length (l_name l) = NAME_LEN /\ u64 (l_host l) /\ u32 (l_flags l) /\ length (l_hole l) = 4 /\ ok_disk (l_disk l).
Definition ok_res (r : resrc) : Prop := length (r_ls r) = NAME_LEN /\ length (r_name r) = NAME_LEN /\ u64 (r_lver r) /\ u64 (r_data64 r) /\
  u32 (r_data32 r) /\ u32 (r_unused r) /\ u32 (r_flags r) /\ u32 (r_num r).
Definition ok_disks (r : resrc) (ds : list disk) : Prop := Forall ok_disk ds /\ N.of_nat (length ds) = r_num r.
Definition ok_rx (x : rindex) : Prop := u32 (x_flags x) /\ u32 (x_max x) /\ u64 (x_unused x) /\ length (x_ls x) = NAME_LEN /\ ok_disk (x_disk x).
Definition ok_re (e : rentry) : Prop := length (e_name e) = NAME_LEN /\ u64 (e_offset e) /\ u32 (e_flags e) /\ u32 (e_unused e).
Definition ok_ev (v : event) : Prop := u64 (v_host v) /\ u64 (v_gen v) /\ u64 (v_event v) /\ u64 (v_data v).
Definition ok_name (s : bytes) : Prop := length s <= NAME_LEN.
Definition ok_call (c : call) : Prop :=
  match c with
  | CAdd l _ _ | CInq l _ | CRem l _ | CReadLs l _ | CWriteLs l _ _ _ => ok_ls l
  | CGetHosts s h _ => ok_name s /\ u64 h
  | CSetConfig s _ _ | CEnd s _ => ok_name s
  | CReg s v _ => ok_name s /\ match v with Some v => ok_ev v | None => True end
  | CSetEvent s v _ => ok_name s /\ ok_ev v
  | CAlign d => ok_disk d
  | CReadRes r ds _ | COwners r ds _ | CWriteRes r ds _ _ _ | CRequest _ _ r ds => ok_res r /\ ok_disks r ds
  | CExamine _ l r => match l with Some l => ok_ls l | None => True end /\ match r with Some r => ok_res r | None => True end
  | CSetLvb _ r _ | CGetLvb _ r _ => ok_res r
  | CFormat x _ | CRebuild x _ => ok_rx x
  | CUpdate x _ e | CLookup x _ e | CCreate x _ e _ _ | CDelete x _ e => ok_rx x /\ ok_re e
  end.

(* ---- what is to be carried out ---- *)
Fixpoint text (p : bytes) : bytes := match p with [] => [] | c :: p => if N.eqb c 0 then [] else c :: text p end.
Definition where_ (d : disk) : place := (Some (text (d_path d)), d_offset d).
Definition field (s : bytes) : bytes := s ++ repeat 0%N (NAME_LEN - length s).
Definition or_default (dflt v : N) : N := if N.eqb v 0 then dflt else v.
Definition flag (f : N) (bit : N) : bool := N.testbit f bit.
Definition wanted (dflt : N) (c : call) : op :=
  match c with
  | CAdd l f t => DAdd (l_name l) (l_host l) (where_ (l_disk l)) (or_default dflt t) (flag f 0)
  | CInq l f => DInq (l_name l) (l_host l) (where_ (l_disk l)) (flag f 0)
  | CRem l f => DRem (l_name l) (l_host l) (where_ (l_disk l)) (flag f 1) (flag f 0)
  | CGetHosts s h _ => DGetHosts (field s) h
  | CSetConfig s f k => DSetConfig (field s) f k
  | CAlign d => DAlign (where_ d)
  | CReadLs l _ => DReadLs (if N.eqb (l_host l) 0 then 1 else l_host l) (where_ (l_disk l)) (l_flags l)
  | CWriteLs l _ _ t => DWriteLs (l_name l) (where_ (l_disk l)) (l_flags l) (or_default dflt t)
  | CReadRes r ds _ => DReadRes (map where_ ds) (r_flags r)
  | COwners r ds _ => DOwners (map where_ ds) (r_flags r)
  | CWriteRes r ds _ n f => DWriteRes (r_ls r) (r_name r) (map where_ ds) (r_flags r) n (flag f 0)
  | CRequest f m r ds => DRequest (r_ls r) (r_name r) (map where_ ds) (r_lver r) m (flag f 0)
  | CExamine _ (Some l) _ => DExamLs (l_name l)
  | CExamine _ None (Some r) => DExamRes (r_ls r) (r_name r)
  | CExamine _ None None => DExamLs []
  | CSetLvb _ r v => DSetLvb (r_ls r) (r_name r) v
  | CGetLvb _ r _ => DGetLvb (r_ls r) (r_name r) 0      (* 0: all of it; the library cuts it *)
  | CReg s _ f => DReg (field s) f
  | CEnd s _ => DEnd (field s)
  | CSetEvent s v f => DSetEvent (field s) v f
  | CFormat x _ => DFormat (x_ls x) (where_ (x_disk x)) (x_flags x) (x_max x)
  | CRebuild x f => DRebuild (x_ls x) (where_ (x_disk x)) (x_flags x) (x_max x) f
  | CUpdate x f e => DUpdate (x_ls x) (where_ (x_disk x)) (x_flags x) (x_max x) e f
  | CLookup x f e => DLookup (x_ls x) (where_ (x_disk x)) (x_flags x) (x_max x) e f
  | CCreate x _ e m n => DCreate (x_ls x) (where_ (x_disk x)) (x_flags x) (x_max x) e m n
  | CDelete x _ e => DDelete (x_ls x) (where_ (x_disk x)) (x_flags x) (x_max x) e
  end.
(* the daemon refuses: no disks or more than four, no path, a value block of more than 4096 *)
Definition out_of_range (c : call) : Prop :=
  match c with
  | CRequest _ _ r _ => r_num r = 0%N \/ (4 < r_num r)%N
  | CAlign d => empty (d_path d) = true
  | CSetLvb _ _ v => 4096 < length v
  | _ => False
  end.
(* calls whose arguments do not arrive, see the counterexamples *)
Definition odd (c : call) : Prop :=
  match c with
  | CWriteRes _ _ m n _ => m <> n
  | CExamine _ (Some l) _ => empty (d_path (l_disk l)) = true
  | _ => False
  end.

(* ---- structures survive the way ---- *)
Lemma tk_app : forall n a b, length a = n -> tk n (a ++ b) = (a, b).
Proof. intros n a b <-. unfold tk. rewrite firstn_app, skipn_app, Nat.sub_diag, firstn_all, skipn_all. cbn. rewrite app_nil_r. reflexivity. Qed.
Lemma num_app : forall n v b, (v < 256 ^ N.of_nat n)%N -> num n (le_enc n v ++ b) = (v, b).
Proof.
  intros n v b H. pose proof (tk_app n (le_enc n v) b (le_enc_length n v)) as T. unfold tk in T. injection T as T1 T2.
  unfold num. rewrite T1, T2, le_dec_enc_small by exact H. reflexivity.
Qed.
Lemma num4 : forall v b, u32 v -> num 4 (le_enc 4 v ++ b) = (v, b).
Proof. intros. apply num_app. exact H. Qed.
Lemma num8 : forall v b, u64 v -> num 8 (le_enc 8 v ++ b) = (v, b).
Proof. intros. apply num_app. exact H. Qed.

Lemma dec_enc_disk : forall d b, ok_disk d -> dec_disk (enc_disk d ++ b) = (d, b).
Proof.
  intros [p o p1 p2] b (L & _ & O & A & B). cbn [d_path d_offset d_pad1 d_pad2] in *. unfold dec_disk, enc_disk. cbn [d_path d_offset d_pad1 d_pad2].
  rewrite <- !app_assoc, tk_app by exact L. rewrite num8 by exact O. rewrite num4 by exact A. rewrite num4 by exact B. reflexivity.
Qed.
Lemma dec_enc_ls : forall l b, ok_ls l -> dec_ls (enc_ls l ++ b) = (l, b).
Proof.
  intros [n h f o d] b (L & H & F & O & D). cbn [l_name l_host l_flags l_hole l_disk] in *. unfold dec_ls, enc_ls. cbn [l_name l_host l_flags l_hole l_disk].
  rewrite <- !app_assoc, tk_app by exact L. rewrite num8 by exact H. rewrite num4 by exact F. rewrite tk_app by exact O. rewrite dec_enc_disk by exact D. reflexivity.
Qed.
Lemma dec_enc_res : forall r b, ok_res r -> dec_res (enc_res r ++ b) = (r, b).
Proof.
  intros [l n v d e u f k] b (A & B & C & D & E & F & G & H). cbn [r_ls r_name r_lver r_data64 r_data32 r_unused r_flags r_num] in *.
  unfold dec_res, enc_res. cbn [r_ls r_name r_lver r_data64 r_data32 r_unused r_flags r_num].
  rewrite <- !app_assoc, tk_app by exact A. rewrite tk_app by exact B. rewrite num8 by exact C. rewrite num8 by exact D.
  rewrite !num4 by assumption. reflexivity.
Qed.
Lemma dec_enc_rx : forall x b, ok_rx x -> dec_rx (enc_rx x ++ b) = (x, b).
Proof.
  intros [f m u l d] b (A & B & C & D & E). cbn [x_flags x_max x_unused x_ls x_disk] in *. unfold dec_rx, enc_rx. cbn [x_flags x_max x_unused x_ls x_disk].
  rewrite <- !app_assoc, !num4 by assumption. rewrite num8 by exact C. rewrite tk_app by exact D. rewrite dec_enc_disk by exact E. reflexivity.
Qed.
Lemma dec_enc_re : forall e b, ok_re e -> dec_re (enc_re e ++ b) = (e, b).
Proof.
  intros [n o f u] b (A & B & C & D). cbn [e_name e_offset e_flags e_unused] in *. unfold dec_re, enc_re. cbn [e_name e_offset e_flags e_unused].
  rewrite <- !app_assoc, tk_app by exact A. rewrite num8 by exact B. rewrite !num4 by assumption. reflexivity.
Qed.
Lemma dec_enc_ev : forall v b, ok_ev v -> dec_ev (enc_ev v ++ b) = (v, b).
Proof.
  intros [h g e d] b (A & B & C & D). cbn [v_host v_gen v_event v_data] in *. unfold dec_ev, enc_ev. cbn [v_host v_gen v_event v_data].
  rewrite <- !app_assoc, !num8 by assumption. reflexivity.
Qed.
Lemma dec_enc_disks : forall ds b, Forall ok_disk ds -> dec_disks (length ds) (concat (map enc_disk ds) ++ b) = (ds, b).
Proof.
  induction ds as [|d ds IH]; intros b H; [reflexivity|]. inversion H; subst. cbn [map concat length dec_disks].
  rewrite <- app_assoc, dec_enc_disk, IH by assumption. reflexivity.
Qed.

Lemma len_disk : forall d, ok_disk d -> length (enc_disk d) = DSIZE.
Proof. intros d (L & _). unfold enc_disk. rewrite !app_length, !le_enc_length, L. reflexivity. Qed.
Lemma len_ls : forall l, ok_ls l -> length (enc_ls l) = LSIZE.
Proof. intros l (L & _ & _ & O & D). unfold enc_ls. rewrite !app_length, !le_enc_length, L, O, len_disk by exact D. reflexivity. Qed.
Lemma len_res : forall r, ok_res r -> length (enc_res r) = RSIZE.
Proof. intros r (L & O & _). unfold enc_res. rewrite !app_length, !le_enc_length, L, O. reflexivity. Qed.
Lemma len_rx : forall x, ok_rx x -> length (enc_rx x) = XSIZE.
Proof. intros x (_ & _ & _ & L & D). unfold enc_rx. rewrite !app_length, !le_enc_length, L, len_disk by exact D. reflexivity. Qed.
Lemma len_re : forall e, ok_re e -> length (enc_re e) = ESIZE.
Proof. intros e (L & _). unfold enc_re. rewrite !app_length, !le_enc_length, L. reflexivity. Qed.
Lemma len_ev : forall v, length (enc_ev v) = VSIZE.
Proof. intros v. unfold enc_ev. rewrite !app_length, !le_enc_length. reflexivity. Qed.
Lemma len_disks : forall ds, Forall ok_disk ds -> length (concat (map enc_disk ds)) = length ds * DSIZE.
Proof.
  induction ds as [|d ds IH]; intros H; [reflexivity|]. inversion H; subst. cbn [map concat length].
  rewrite app_length, len_disk, IH by assumption. reflexivity.
Qed.

Lemma recv_app : forall {A} n (dec : bytes -> A * bytes) a b v r k, length a = n -> dec a = (v, r) -> recv n dec (a ++ b) k = k v b.
Proof.
  intros A n dec a b v r k L D. unfold recv. rewrite app_length, L.
  destruct (Nat.ltb_spec (n + length b) n) as [H | _]; [lia|]. pose proof (tk_app n a b L) as T. unfold tk in T. injection T as -> ->.
  rewrite D. reflexivity.
Qed.
Lemma recv_ls : forall l b k, ok_ls l -> recv LSIZE dec_ls (enc_ls l ++ b) k = k l b.
Proof. intros l b k H. apply (recv_app LSIZE dec_ls (enc_ls l) b l []); [apply len_ls; exact H|]. rewrite <- (app_nil_r (enc_ls l)). apply dec_enc_ls. exact H. Qed.
Lemma recv_disk : forall d b k, ok_disk d -> recv DSIZE dec_disk (enc_disk d ++ b) k = k d b.
Proof. intros l b k H. apply (recv_app DSIZE dec_disk (enc_disk l) b l []); [apply len_disk; exact H|]. rewrite <- (app_nil_r (enc_disk l)). apply dec_enc_disk. exact H. Qed.
Lemma recv_res : forall r b k, ok_res r -> recv RSIZE dec_res (enc_res r ++ b) k = k r b.
Proof. intros l b k H. apply (recv_app RSIZE dec_res (enc_res l) b l []); [apply len_res; exact H|]. rewrite <- (app_nil_r (enc_res l)). apply dec_enc_res. exact H. Qed.
Lemma recv_rx : forall x b k, ok_rx x -> recv XSIZE dec_rx (enc_rx x ++ b) k = k x b.
Proof. intros l b k H. apply (recv_app XSIZE dec_rx (enc_rx l) b l []); [apply len_rx; exact H|]. rewrite <- (app_nil_r (enc_rx l)). apply dec_enc_rx. exact H. Qed.
Lemma recv_re : forall e b k, ok_re e -> recv ESIZE dec_re (enc_re e ++ b) k = k e b.
Proof. intros l b k H. apply (recv_app ESIZE dec_re (enc_re l) b l []); [apply len_re; exact H|]. rewrite <- (app_nil_r (enc_re l)). apply dec_enc_re. exact H. Qed.
Lemma recv_ev : forall v b k, ok_ev v -> recv VSIZE dec_ev (enc_ev v ++ b) k = k v b.
Proof. intros l b k H. apply (recv_app VSIZE dec_ev (enc_ev l) b l []); [apply len_ev|]. rewrite <- (app_nil_r (enc_ev l)). apply dec_enc_ev. exact H. Qed.

Lemma with_disks_ok : forall r ds k, ok_res r -> ok_disks r ds -> r_num r <> 0%N -> (r_num r <= 4)%N ->
  with_disks (enc_res r ++ concat (map enc_disk ds)) k = Run (k r ds) [].
Proof.
  intros r ds k Hr [Hd Hn] H0 H4. unfold with_disks. rewrite recv_res by exact Hr.
  destruct (N.eqb_spec (r_num r) 0) as [e | _]; [contradiction|]. destruct (N.ltb_spec 4 (r_num r)) as [e | _]; [lia|]. cbn [orb].
  assert (E : N.to_nat (r_num r) = length ds) by lia. rewrite E. rewrite <- (app_nil_r (concat (map enc_disk ds))).
  apply (recv_app (length ds * DSIZE) (dec_disks (length ds)) (concat (map enc_disk ds)) [] ds []); [apply len_disks; exact Hd|].
  rewrite <- (app_nil_r (concat (map enc_disk ds))). apply dec_enc_disks. exact Hd.
Qed.
Lemma with_entry_ok : forall x e k, ok_rx x -> ok_re e -> with_entry (enc_rx x ++ enc_re e) k = Run (k x e) [].
Proof. intros x e k Hx He. unfold with_entry. rewrite recv_rx by exact Hx. rewrite <- (app_nil_r (enc_re e)). apply recv_re. exact He. Qed.

Lemma cstr_text : forall p b, In 0%N p -> cstr (p ++ b) = Some (text p).
Proof.
  induction p as [|c p IH]; intros b H; [destruct H|]. cbn. destruct (N.eqb_spec c 0) as [e | e]; [reflexivity|].
  destruct H as [H | H]; [congruence|]. rewrite IH by exact H. reflexivity.
Qed.
Lemma at_ok : forall d a b, ok_disk d -> at_ d a b = where_ d.
Proof. intros d a b (_ & H & _). unfold at_, where_, enc_disk. cbn [d_path d_offset]. rewrite cstr_text by exact H. reflexivity. Qed.
Lemma within_ok : forall d, ok_disk d -> within d = where_ d.
Proof. intros d (_ & H & _). unfold within, where_. rewrite cstr_text by exact H. reflexivity. Qed.
Lemma clean_all : forall ds, Forall ok_disk ds -> map clean ds = map where_ ds.
Proof. intros ds H. apply map_ext_in. intros d Hd. rewrite Forall_forall in H. apply at_ok. auto. Qed.

Lemma zeros_len : forall n, length (zeros n) = n.
Proof. intros. apply repeat_length. Qed.
Lemma firstn_zeros : forall k n, k <= n -> firstn k (zeros n) = zeros k.
Proof. induction k as [|k IH]; intros n H; [reflexivity|]. destruct n as [|n]; [lia|]. cbn. f_equal. apply IH. lia. Qed.
Lemma named_name : forall s h, ok_name s -> l_name (named s h) = field s.
Proof.
  intros s h H. cbn [named l_name]. unfold strncpy, field, ok_name in *. rewrite firstn_app.
  rewrite firstn_all2 by exact H. f_equal. apply firstn_zeros. apply Nat.le_sub_l.
Qed.
Lemma named_ok : forall s h, u64 h -> ok_ls (named s h).
Proof.
  intros s h H. split; [|split; [exact H|split; [reflexivity|split; [reflexivity|]]]].
  - cbn [named l_name]. unfold strncpy. apply firstn_length_le. rewrite app_length, zeros_len. lia.
  - split; [apply zeros_len|]. split; [left; reflexivity|]. repeat split; reflexivity.
Qed.
Lemma Nat2N_lt : forall n, (4096 < N.of_nat n)%N -> 4096 < n.
Proof. intros n H. apply N.lt_le_incl in H as H'. assert (E : (N.of_nat 4096 < N.of_nat n)%N) by exact H. rewrite <- N.compare_lt_iff, <- Nnat.Nat2N.inj_compare in E. apply Nat.compare_lt_iff. exact E. Qed.
Lemma Nat2N_lt' : forall m n, m < n -> (N.of_nat m < N.of_nat n)%N.
Proof. intros m n H. lia. Qed.
Lemma u64_0 : u64 0. Proof. reflexivity. Qed.

Lemma LSend_inj : forall a c h b, LSend a c = LSend h b -> h = a /\ b = c.
Proof. intros a c h b H. injection H as <- <-. auto. Qed.
Lemma daemon_lvb : forall dflt f n r b, ok_res r -> daemon dflt (mkHdr 25 f (sz HSIZE + (sz RSIZE + n)) 0 0) (enc_res r ++ b) =
  if (4096 <? n)%N then Refuse E2BIG b else recv (N.to_nat n) (fun v => (v, [])) b (fun v b => Run (DSetLvb (r_ls r) (r_name r) v) b).
Proof.
  intros dflt f n r b H.
  assert (U : forall h c, h_cmd h = 25%N -> daemon dflt h c = recv RSIZE dec_res c (fun r b =>
            if (h_length h <? sz HSIZE + sz RSIZE)%N then Refuse ENOMEM b
            else let n := N.to_nat (h_length h - sz HSIZE - sz RSIZE) in
              if (4096 <? h_length h - sz HSIZE - sz RSIZE)%N then Refuse E2BIG b
              else recv n (fun v => (v, [])) b (fun v b => Run (DSetLvb (r_ls r) (r_name r) v) b))).
  { intros h c E. unfold daemon. rewrite E. reflexivity. }
  rewrite U by reflexivity. change (h_length (mkHdr 25 f (sz HSIZE + (sz RSIZE + n)) 0 0)) with (sz HSIZE + (sz RSIZE + n))%N. clear U.
  rewrite recv_res by exact H. generalize (sz HSIZE) (sz RSIZE). intros a c. cbv zeta.
  destruct (N.ltb_spec (a + (c + n)) (a + c)) as [e | _]; [lia|].
  replace (a + (c + n) - a - c)%N with n by lia. reflexivity.
Qed.

(* ---- the claim ---- *)
Theorem C98_args_partial : forall dflt c h b, ok_call c -> ~ odd c -> ~ out_of_range c -> lib c = LSend h b ->
  daemon dflt h b = Run (wanted dflt c) [].
Proof.
  intros dflt c h b Hok Hodd Hr Hl.
  assert (NR : forall r ds, bad_res r ds = false -> r_num r <> 0%N /\ (r_num r <= 4)%N).
  { intros r ds H. unfold bad_res in H. apply orb_false_iff in H as [H _]. apply orb_false_iff in H as [H1 H2].
    apply N.eqb_neq in H1. apply N.ltb_ge in H2. auto. }
  assert (DS : forall r ds, ok_disks r ds -> Forall ok_disk ds) by (intros r ds [H _]; exact H).
  destruct c; cbn [lib ok_call odd out_of_range] in *; unfold snd_ in Hl.
  - apply LSend_inj in Hl as [-> ->]. unfold daemon. cbn [h_cmd h_flags h_data h_data2]. rewrite <- (app_nil_r (enc_ls l)), recv_ls by exact Hok.
    unfold clean. rewrite at_ok by apply Hok. reflexivity.
  - apply LSend_inj in Hl as [-> ->]. unfold daemon. cbn [h_cmd h_flags h_data h_data2]. rewrite <- (app_nil_r (enc_ls l)), recv_ls by exact Hok.
    rewrite within_ok by apply Hok. reflexivity.
  - apply LSend_inj in Hl as [-> ->]. unfold daemon. cbn [h_cmd h_flags h_data h_data2]. rewrite <- (app_nil_r (enc_ls l)), recv_ls by exact Hok.
    rewrite within_ok by apply Hok. reflexivity.
  - destruct Hok as [Hs Hh]. apply LSend_inj in Hl as [-> ->]. unfold daemon. cbn [h_cmd h_flags h_data h_data2].
    rewrite <- (app_nil_r (enc_ls _)), recv_ls by (apply named_ok; exact Hh). rewrite named_name by exact Hs. reflexivity.
  - apply LSend_inj in Hl as [-> ->]. unfold daemon. cbn [h_cmd h_flags h_data h_data2].
    rewrite <- (app_nil_r (enc_ls _)), recv_ls by (apply named_ok, u64_0). rewrite named_name by exact Hok. reflexivity.
  - apply LSend_inj in Hl as [-> ->]. unfold daemon. cbn [h_cmd h_flags h_data h_data2]. rewrite <- (app_nil_r (enc_disk d)), recv_disk by exact Hok.
    destruct (empty (d_path d)); [contradiction Hr; reflexivity|]. unfold copied. rewrite at_ok by exact Hok. reflexivity.
  - destruct (empty (d_path (l_disk l))) eqn:Ee; [discriminate|]. apply LSend_inj in Hl as [-> ->]. unfold daemon. cbn [h_cmd h_flags h_data h_data2].
    rewrite <- (app_nil_r (enc_ls l)), recv_ls by exact Hok. rewrite Ee. unfold copied. rewrite at_ok by apply Hok. reflexivity.
  - destruct (empty (d_path (l_disk l))) eqn:Ee; [discriminate|]. apply LSend_inj in Hl as [-> ->]. unfold daemon. cbn [h_cmd h_flags h_data h_data2].
    rewrite <- (app_nil_r (enc_ls l)), recv_ls by exact Hok. rewrite Ee. unfold copied. rewrite at_ok by apply Hok. reflexivity.
  - destruct Hok as [Ho Hd]. destruct (bad_res r ds) eqn:Eb; [discriminate|]. destruct (NR r ds Eb). apply LSend_inj in Hl as [-> ->]. unfold daemon. cbn [h_cmd h_flags h_data h_data2].
    rewrite with_disks_ok by assumption. rewrite clean_all by (eapply DS; exact Hd). reflexivity.
  - destruct Hok as [Ho Hd]. destruct (bad_res r ds) eqn:Eb; [discriminate|]. destruct (NR r ds Eb). apply LSend_inj in Hl as [-> ->]. unfold daemon. cbn [h_cmd h_flags h_data h_data2].
    rewrite with_disks_ok by assumption. rewrite clean_all by (eapply DS; exact Hd). reflexivity.
  - destruct Hok as [Ho Hd]. destruct (bad_res r ds) eqn:Eb; [discriminate|]. destruct (NR r ds Eb). apply LSend_inj in Hl as [-> ->]. unfold daemon. cbn [h_cmd h_flags h_data h_data2].
    rewrite with_disks_ok by assumption. rewrite clean_all by (eapply DS; exact Hd).
    destruct (N.eq_dec max_hosts num_hosts) as [-> | n]; [reflexivity|contradiction].
  - destruct Hok as [Ho Hd]. apply LSend_inj in Hl as [-> ->]. unfold daemon. cbn [h_cmd h_flags h_data h_data2].
    rewrite with_disks_ok by (try assumption; try lia; intros E; apply Hr; left; exact E). rewrite clean_all by (eapply DS; exact Hd). reflexivity.
  - destruct Hok as [Ho1 Ho2]. destruct l as [l|].
    + destruct (empty (d_path (l_disk l))) eqn:Ee; [contradiction Hodd; reflexivity|]. apply LSend_inj in Hl as [-> ->]. unfold daemon. cbn [h_cmd h_flags h_data h_data2].
      rewrite <- (app_nil_r (enc_ls l)), recv_ls by exact Ho1. reflexivity.
    + destruct r as [r|]; [|discriminate]. apply LSend_inj in Hl as [-> ->]. unfold daemon. cbn [h_cmd h_flags h_data h_data2].
      rewrite <- (app_nil_r (enc_res r)), recv_res by exact Ho2. reflexivity.
  - destruct lvb as [|v0 v]; [discriminate|]. set (w := v0 :: v) in *. apply LSend_inj in Hl as [-> ->].
    rewrite daemon_lvb by exact Hok. unfold sz.
    destruct (N.ltb_spec 4096 (N.of_nat (length w))) as [e | _]; [exfalso; apply Hr; apply Nat2N_lt; exact e|].
    rewrite Nnat.Nat2N.id. rewrite <- (app_nil_r w) at 2. rewrite (recv_app (length w) (fun v => (v, [])) w [] w []) by reflexivity. reflexivity.
  - destruct (N.eqb len 0); [discriminate|]. apply LSend_inj in Hl as [-> ->]. unfold daemon. cbn [h_cmd h_flags h_data h_data2].
    rewrite <- (app_nil_r (enc_res r)), recv_res by exact Hok. reflexivity.
  - destruct Hok as [Hs Hv]. apply LSend_inj in Hl as [-> ->]. unfold daemon. cbn [h_cmd h_flags h_data h_data2].
    rewrite recv_ls by (apply named_ok, u64_0). rewrite <- (app_nil_r (enc_ev _)), recv_ev.
    + rewrite named_name by exact Hs. reflexivity.
    + destruct v; [exact Hv|repeat split; reflexivity].
  - apply LSend_inj in Hl as [-> ->]. unfold daemon. cbn [h_cmd h_flags h_data h_data2].
    rewrite <- (app_nil_r (enc_ls _)), recv_ls by (apply named_ok, u64_0). rewrite named_name by exact Hok. reflexivity.
  - destruct Hok as [Hs Hv]. apply LSend_inj in Hl as [-> ->]. unfold daemon. cbn [h_cmd h_flags h_data h_data2].
    rewrite recv_ls by (apply named_ok, u64_0). rewrite <- (app_nil_r (enc_ev _)), recv_ev by exact Hv. rewrite named_name by exact Hs. reflexivity.
  - destruct (bad_rx x); [discriminate|]. apply LSend_inj in Hl as [-> ->]. unfold daemon. cbn [h_cmd h_flags h_data h_data2].
    rewrite <- (app_nil_r (enc_rx x)), recv_rx by exact Hok. unfold kept. rewrite at_ok by apply Hok. reflexivity.
  - destruct (bad_rx x); [discriminate|]. apply LSend_inj in Hl as [-> ->]. unfold daemon. cbn [h_cmd h_flags h_data h_data2].
    rewrite <- (app_nil_r (enc_rx x)), recv_rx by exact Hok. unfold kept. rewrite at_ok by apply Hok. reflexivity.
  - destruct Hok as [Hx He]. destruct (bad_rx x); [discriminate|]. apply LSend_inj in Hl as [-> ->]. unfold daemon. cbn [h_cmd h_flags h_data h_data2].
    rewrite with_entry_ok by assumption. unfold kept. rewrite at_ok by apply Hx. reflexivity.
  - destruct Hok as [Hx He]. destruct (bad_rx x); [discriminate|]. apply LSend_inj in Hl as [-> ->]. unfold daemon. cbn [h_cmd h_flags h_data h_data2].
    rewrite with_entry_ok by assumption. unfold kept. rewrite at_ok by apply Hx. reflexivity.
  - destruct Hok as [Hx He]. destruct (bad_rx x); [discriminate|]. apply LSend_inj in Hl as [-> ->]. unfold daemon. cbn [h_cmd h_flags h_data h_data2].
    rewrite with_entry_ok by assumption. unfold kept. rewrite at_ok by apply Hx. reflexivity.
  - destruct Hok as [Hx He]. destruct (bad_rx x); [discriminate|]. apply LSend_inj in Hl as [-> ->]. unfold daemon. cbn [h_cmd h_flags h_data h_data2].
    rewrite with_entry_ok by assumption. unfold kept. rewrite at_ok by apply Hx. reflexivity.
Qed.
Print Assumptions C98_args_partial.

(* what is out of range is refused and not carried out *)
Theorem C98_out_of_range : forall dflt c h b, ok_call c -> out_of_range c -> lib c = LSend h b ->
  exists e rest, daemon dflt h b = Refuse e rest.
Proof.
  intros dflt c h b Hok Hr Hl. destruct c; cbn [lib ok_call out_of_range] in *; try contradiction; unfold snd_ in Hl.
  - apply LSend_inj in Hl as [-> ->]. unfold daemon. cbn [h_cmd]. rewrite <- (app_nil_r (enc_disk d)), recv_disk by exact Hok. rewrite Hr. eauto.
  - destruct Hok as [Ho _]. apply LSend_inj in Hl as [-> ->]. unfold daemon. cbn [h_cmd]. unfold with_disks. rewrite recv_res by exact Ho.
    destruct Hr as [-> | Hr]; [cbn [N.eqb orb]; eauto|]. apply N.ltb_lt in Hr. rewrite Hr, orb_true_r. eauto.
  - destruct lvb as [|v0 v]; [cbn in Hr; lia|]. set (w := v0 :: v) in *. apply LSend_inj in Hl as [-> ->]. rewrite daemon_lvb by exact Hok. unfold sz.
    assert (E : (4096 <? N.of_nat (length w))%N = true) by (apply N.ltb_lt; change 4096%N with (N.of_nat 4096); apply Nat2N_lt'; exact Hr).
    rewrite E. eauto.
Qed.
Print Assumptions C98_out_of_range.

(* the header says how long the message is, but for the look-up in an index *)
Theorem C98_length_partial : forall c h b, ok_call c -> (forall x f e, c <> CLookup x f e) -> lib c = LSend h b ->
  h_length h = (N.of_nat 32 + N.of_nat (length b))%N.
Proof.
  intros c h b Hok Hn Hl.
  assert (K : forall cmd f n d e w, snd_ cmd f n d e w = LSend h b -> n = N.of_nat (length w) -> h_length h = (N.of_nat 32 + N.of_nat (length b))%N).
  { intros cmd f n d e w E Hlen. apply LSend_inj in E as [-> ->]. cbn [h_length]. rewrite Hlen. reflexivity. }
  assert (RD : forall r ds, ok_res r -> ok_disks r ds -> (sz RSIZE + sz DSIZE * r_num r)%N = N.of_nat (length (enc_res r ++ concat (map enc_disk ds)))).
  { intros r ds Hr [Hd Hc]. rewrite app_length, (len_res _ Hr).
    assert (E : length (concat (map enc_disk ds)) = length ds * DSIZE).
    { clear Hc. induction Hd as [|d ds Hd _ IH]; [reflexivity|]. cbn [map concat length]. rewrite app_length, IH, (len_disk _ Hd). reflexivity. }
    rewrite E, <- Hc, Nnat.Nat2N.inj_add, Nnat.Nat2N.inj_mul. unfold sz. lia. }
  assert (XE : forall x e, ok_rx x -> ok_re e -> (sz XSIZE + sz ESIZE)%N = N.of_nat (length (enc_rx x ++ enc_re e))).
  { intros x e Hx He. rewrite app_length, (len_rx _ Hx), (len_re _ He), Nnat.Nat2N.inj_add. reflexivity. }
  assert (LV : forall l v, ok_ls l -> ok_ev v -> (sz LSIZE + sz VSIZE)%N = N.of_nat (length (enc_ls l ++ enc_ev v))).
  { intros l v Hx He. rewrite app_length, (len_ls _ Hx), (len_ev v), Nnat.Nat2N.inj_add. reflexivity. }
  destruct c; cbn [lib ok_call] in *.
  - apply (K _ _ _ _ _ _ Hl). rewrite (len_ls _ Hok). reflexivity.
  - apply (K _ _ _ _ _ _ Hl). rewrite (len_ls _ Hok). reflexivity.
  - apply (K _ _ _ _ _ _ Hl). rewrite (len_ls _ Hok). reflexivity.
  - destruct Hok as [_ Hh]. apply (K _ _ _ _ _ _ Hl). rewrite len_ls by (apply named_ok; exact Hh). reflexivity.
  - apply (K _ _ _ _ _ _ Hl). rewrite len_ls by (apply named_ok, u64_0). reflexivity.
  - apply (K _ _ _ _ _ _ Hl). rewrite (len_disk _ Hok). reflexivity.
  - destruct (empty _); [discriminate|]. apply (K _ _ _ _ _ _ Hl). rewrite (len_ls _ Hok). reflexivity.
  - destruct (empty _); [discriminate|]. apply (K _ _ _ _ _ _ Hl). rewrite (len_ls _ Hok). reflexivity.
  - destruct Hok. destruct (bad_res _ _); [discriminate|]. apply (K _ _ _ _ _ _ Hl). apply RD; assumption.
  - destruct Hok. destruct (bad_res _ _); [discriminate|]. apply (K _ _ _ _ _ _ Hl). apply RD; assumption.
  - destruct Hok. destruct (bad_res _ _); [discriminate|]. apply (K _ _ _ _ _ _ Hl). apply RD; assumption.
  - destruct Hok. apply (K _ _ _ _ _ _ Hl). apply RD; assumption.
  - destruct Hok as [H1 H2]. destruct l as [l|].
    + destruct (empty _).
      * destruct r as [r|]; [|discriminate]. apply (K _ _ _ _ _ _ Hl). rewrite (len_res _ H2). reflexivity.
      * apply (K _ _ _ _ _ _ Hl). rewrite (len_ls _ H1). reflexivity.
    + destruct r as [r|]; [|discriminate]. apply (K _ _ _ _ _ _ Hl). rewrite (len_res _ H2). reflexivity.
  - destruct lvb as [|v0 v]; [discriminate|]. apply (K _ _ _ _ _ _ Hl). rewrite app_length, (len_res _ Hok), Nnat.Nat2N.inj_add. reflexivity.
  - destruct (N.eqb _ _); [discriminate|]. apply (K _ _ _ _ _ _ Hl). rewrite (len_res _ Hok). reflexivity.
  - destruct Hok as [_ Hv]. apply (K _ _ _ _ _ _ Hl). apply LV; [apply named_ok, u64_0|]. destruct v; [exact Hv|repeat split; reflexivity].
  - apply (K _ _ _ _ _ _ Hl). rewrite len_ls by (apply named_ok, u64_0). reflexivity.
  - destruct Hok as [_ Hv]. apply (K _ _ _ _ _ _ Hl). apply LV; [apply named_ok, u64_0|exact Hv].
  - destruct (bad_rx _); [discriminate|]. apply (K _ _ _ _ _ _ Hl). rewrite (len_rx _ Hok). reflexivity.
  - destruct (bad_rx _); [discriminate|]. apply (K _ _ _ _ _ _ Hl). rewrite (len_rx _ Hok). reflexivity.
  - destruct Hok. destruct (bad_rx _); [discriminate|]. apply (K _ _ _ _ _ _ Hl). apply XE; assumption.
  - exfalso. eapply Hn. reflexivity.
  - destruct Hok. destruct (bad_rx _); [discriminate|]. apply (K _ _ _ _ _ _ Hl). apply XE; assumption.
  - destruct Hok. destruct (bad_rx _); [discriminate|]. apply (K _ _ _ _ _ _ Hl). apply XE; assumption.
Qed.
Print Assumptions C98_length_partial.

(* ---- a concrete caller: lockspace "LS", resource "R1" on "/d" ---- *)
Definition ls_ := [76; 83]%N. Definition r1 := [82; 49]%N.
Definition pth (s : bytes) : bytes := s ++ repeat 0%N (PATH_LEN - length s).
Definition dk (o : N) : disk := mkDisk (pth [47; 100]%N) o 7 9.
Definition lsp := mkLs (field ls_) 3 16 (zeros 4) (dk 0).
Definition rs (n : N) := mkRes (field ls_) (field r1) 5 0 0 0 0 n.
Definition rx := mkRx 16 0 0 (field ls_) (dk 1048576).
Definition re := mkRe (field r1) 3145728 0 0.
Definition go (c : call) : option res := match lib c with LSend h b => Some (daemon 10 h b) | _ => None end.

(* sanlock_write_resource sends max_hosts where the daemon looks for num_hosts: a lease area for
   8 hosts is asked for and one for 2000 is made *)
Theorem C98_write_resource_refuted : exists c, ok_call c /\ ~ out_of_range c /\
  (exists r ds, c = CWriteRes r ds 2000 8 0) /\
  go c = Some (Run (DWriteRes (field ls_) (field r1) [(Some [47; 100]%N, 1048576%N)] 0 2000 false) []) /\
  wanted 10 c = DWriteRes (field ls_) (field r1) [(Some [47; 100]%N, 1048576%N)] 0 8 false.
Proof.
  exists (CWriteRes (rs 1) [dk 1048576] 2000 8 0). split.
  - split; [vm_compute; intuition congruence|]. split; [|reflexivity]. constructor; [|constructor].
    repeat split; try (vm_compute; reflexivity). do 2 right. left. reflexivity.
  - split; [intros []|]. split; [eauto|]. split; vm_compute; reflexivity.
Qed.
Print Assumptions C98_write_resource_refuted.

(* sanlock_examine of a lockspace given by its name only: with a resource the resource is
   examined, without one the header is sent and then a null pointer *)
Theorem C98_examine_refuted : exists l r, ok_ls l /\ ok_res r /\ l_name l = field ls_ /\
  go (CExamine 0 (Some l) (Some r)) = Some (Run (DExamRes (r_ls r) (r_name r)) []) /\
  wanted 10 (CExamine 0 (Some l) (Some r)) = DExamLs (field ls_) /\
  lib (CExamine 0 (Some l) None) = LFault (mkHdr 14 0 160 0 0).
Proof.
  exists (named ls_ 0), (rs 1). split; [apply named_ok, u64_0|]. split; [vm_compute; intuition congruence|].
  split; [reflexivity|]. split; [|split]; vm_compute; reflexivity.
Qed.
Print Assumptions C98_examine_refuted.

(* a name of more than 48 bytes is cut without a word: two names, one lockspace *)
Theorem C98_name_refuted : exists s t, s <> t /\ length s = 49 /\
  go (CGetHosts s 0 0) = go (CGetHosts t 0 0) /\ go (CSetConfig s 1 2) = go (CSetConfig t 1 2) /\
  go (CEnd s 0) = go (CEnd t 0) /\ go (CGetHosts s 0 0) = Some (Run (DGetHosts t 0) []) /\ ok_name t.
Proof.
  exists (repeat 65%N 49), (repeat 65%N 48). split; [discriminate|]. split; [reflexivity|].
  split; [vm_compute; reflexivity|]. split; [vm_compute; reflexivity|]. split; [vm_compute; reflexivity|].
  split; [vm_compute; reflexivity|]. unfold ok_name. vm_compute. apply le_n.
Qed.
Print Assumptions C98_name_refuted.

(* nothing makes the daemon end a path of 1024 bytes without a 0: the offset becomes part of it *)
Theorem C98_path_refuted : exists d, length (d_path d) = PATH_LEN /\ (d_offset d < 2 ^ 64)%N /\
  exists p, go (CAlign d) = Some (Run (DAlign (Some p, d_offset d)) []) /\ length p = 1026.
Proof.
  exists (mkDisk (repeat 47%N 1024) 0x6261 0 0). split; [reflexivity|]. split; [reflexivity|].
  exists (repeat 47%N 1024 ++ [97; 98]%N). split; vm_compute; reflexivity.
Qed.
Print Assumptions C98_path_refuted.

(* sanlock_lookup_rindex announces 64 bytes more than it sends *)
Theorem C98_length_refuted : exists x e, ok_rx x /\ ok_re e /\
  exists h b, lib (CLookup x 0 e) = LSend h b /\ h_length h = (N.of_nat (32 + length b) + 64)%N.
Proof.
  exists rx, re. split; [|split].
  - repeat split; try (vm_compute; reflexivity). do 2 right. left. reflexivity.
  - repeat split; try (vm_compute; reflexivity).
  - eexists. eexists. split; [reflexivity|]. vm_compute. reflexivity.
Qed.
Print Assumptions C98_length_refuted.

(* the hypotheses hold for a call with two disks, a call with an entry, a value block *)
Example C98_nonvacuous :
  ok_call (CRequest 1 2 (rs 2) [dk 1048576; dk 2097152]) /\ ~ out_of_range (CRequest 1 2 (rs 2) [dk 1048576; dk 2097152]) /\
  go (CRequest 1 2 (rs 2) [dk 1048576; dk 2097152]) =
    Some (Run (DRequest (field ls_) (field r1) [(Some [47; 100]%N, 1048576%N); (Some [47; 100]%N, 2097152%N)] 5 2 true) []) /\
  go (CCreate rx 0 re 2000 8) = Some (Run (DCreate (field ls_) (Some [47; 100]%N, 1048576%N) 16 0 re 2000 8) []) /\
  go (CSetLvb 0 (rs 0) [1; 2; 3]%N) = Some (Run (DSetLvb (field ls_) (field r1) [1; 2; 3]%N) []) /\
  go (CAdd lsp 1 0) = Some (Run (DAdd (field ls_) 3 (Some [47; 100]%N, 0%N) 10 true) []) /\
  go (CRequest 1 2 (rs 5) (repeat (dk 0) 5)) = Some (Refuse ERANGE (concat (map enc_disk (repeat (dk 0) 5)))).
Proof.
  split.
  - split; [vm_compute; intuition congruence|]. split; [|reflexivity].
    repeat constructor; try (vm_compute; reflexivity); do 2 right; left; reflexivity.
  - split; [intros [H | H]; vm_compute in H; congruence|]. split; [|split; [|split; [|split]]]; vm_compute; reflexivity.
Qed.
