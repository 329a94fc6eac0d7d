(* C89: the arguments of a call from Python reach the library as they were given *)
From Coq Require Import List NArith ZArith Lia Bool Arith String ZifyBool ZifyN ZifyNat.
From Verif Require Import Bytes Strings PyArgs.
Import ListNotations.
Open Scope N_scope.

(* ---- specification ---- *)
(* the documented order of the arguments *)
Open Scope string_scope.
Open Scope N_scope.
Definition signature (f : pyfn) : list string :=
  match f with
  | FGetAlignment => ["path"]
  | FWriteLockspace => ["lockspace"; "path"; "offset"; "max_hosts"; "iotimeout"; "align"; "sector"]
  | FReadLockspace | FReadResource => ["path"; "offset"; "align"; "sector"]
  | FWriteResource => ["lockspace"; "resource"; "disks"; "max_hosts"; "num_hosts"; "clear"; "align"; "sector"]
  | FAddLockspace => ["lockspace"; "host_id"; "path"; "offset"; "iotimeout"; "wait"]
  | FInqLockspace => ["lockspace"; "host_id"; "path"; "offset"; "wait"]
  | FRemLockspace => ["lockspace"; "host_id"; "path"; "offset"; "wait"; "unused"]
  | FGetHosts => ["lockspace"; "host_id"]
  | FAcquire => ["lockspace"; "resource"; "disks"; "slkfd"; "pid"; "shared"; "lvb"; "version"]
  | FInquire => ["slkfd"; "pid"]
  | FRelease => ["lockspace"; "resource"; "disks"; "slkfd"; "pid"]
  | FRequest => ["lockspace"; "resource"; "disks"; "action"; "version"]
  | FReadOwners => ["lockspace"; "resource"; "disks"; "align"; "sector"]
  | FRegEvent => ["lockspace"]
  | FGetEvent => ["fd"]
  | FEndEvent => ["fd"; "lockspace"]
  | FSetEvent => ["lockspace"; "host_id"; "generation"; "event"; "data"; "flags"]
  | FSetLvb => ["lockspace"; "resource"; "disks"; "data"]
  | FGetLvb => ["lockspace"; "resource"; "disks"; "size"]
  end.

(* the value of an argument: by position, else by name *)
Fixpoint named (k : string) (kw : list (string * pobj)) : option pobj :=
  match kw with [] => None | (n, o) :: r => if string_dec n k then Some o else named k r end.
Fixpoint given (sig : list string) (pos : list pobj) (kw : list (string * pobj)) (k : string) : option pobj :=
  match sig, pos with
  | n :: ns, o :: ps => if string_dec n k then Some o else given ns ps kw k
  | _, _ => named k kw
  end.
(* Python's rules for a call *)
Definition well_formed (f : pyfn) (pos : list pobj) (kw : list (string * pobj)) : Prop :=
  (List.length pos <= List.length (signature f))%nat /\
  (forall k o, In (k, o) kw -> In k (signature f) /\ ~ In k (firstn (List.length pos) (signature f))) /\
  (match f with FGetAlignment | FRegEvent | FGetEvent | FEndEvent => kw = [] | _ => True end).

(* what the objects mean, without any loss *)
Definition nonzero (b : bytes) : bool := forallb (fun c => negb (c =? 0)) b.
Definition w_name (o : option pobj) : option bytes :=
  match o with
  | Some (OBytes b) => if nonzero b && Nat.leb (List.length b) 48 then Some b else None
  | _ => None
  end.
(* a name which is handed over as a string may be longer *)
Definition w_text (o : option pobj) : option bytes :=
  match o with Some (OBytes b) => if nonzero b then Some b else None | _ => None end.
Definition w_bytes (o : option pobj) : option bytes := match o with Some (OBytes b) => Some b | _ => None end.
Definition w_path (o : option pobj) : option bytes :=
  match o with
  | Some (OBytes b) | Some (OStr b) => if nonzero b && Nat.leb (List.length b) 1023 then Some b else None
  | _ => None
  end.
Definition w_num (w : N) (d : option N) (o : option pobj) : option N :=
  match o with
  | None => d
  | Some (OInt z) => if (0 <=? z)%Z && (Z.to_N z <? 2 ^ w) then Some (Z.to_N z) else None
  | _ => None
  end.
Definition w_int (lo hi : Z) (d : option Z) (o : option pobj) : option Z :=
  match o with
  | None => d
  | Some (OInt z) => if (lo <=? z)%Z && (z <=? hi)%Z then Some z else None
  | _ => None
  end.
Definition w_bool (d : bool) (o : option pobj) : option bool :=
  match w_int (-2147483648) 2147483647 (Some (if d then 1 else 0)%Z) o with
  | Some z => Some (negb (z =? 0)%Z)
  | None => None
  end.
Definition w_i32 (d : Z) := w_int (-2147483648) 2147483647 (Some d).
Definition w_align (o : option pobj) : option N :=
  match w_int (-9223372036854775808) 9223372036854775807 (Some 1048576%Z) o with
  | Some 1048576%Z => Some 16 | Some 2097152%Z => Some 32 | Some 4194304%Z => Some 64 | Some 8388608%Z => Some 128
  | _ => None
  end.
Definition w_sector (o : option pobj) : option N :=
  match w_i32 512 o with Some 512%Z => Some 256 | Some 4096%Z => Some 512 | _ => None end.
Definition w_disk (o : pobj) : option (bytes * N) :=
  match o with
  | OTuple [p; q] => match w_path (Some p), w_num 64 None (Some q) with Some b, Some n => Some (b, n) | _, _ => None end
  | _ => None
  end.
Fixpoint w_disks_ (l : list pobj) : option (list (bytes * N)) :=
  match l with
  | [] => Some []
  | o :: r => match w_disk o, w_disks_ r with Some d, Some ds => Some (d :: ds) | _, _ => None end
  end.
Definition w_disks (o : option pobj) : option (list (bytes * N)) :=
  match o with Some (OList l) => w_disks_ l | _ => None end.
(* absent or None: no version *)
Definition w_version (o : option pobj) : option (option N) :=
  match o with
  | None | Some ONone => Some None
  | Some (OInt z) => if (0 <=? z)%Z && (z <? 2 ^ 64 - 1)%Z then Some (Some (Z.to_N z)) else None
  | _ => None
  end.
Definition bit (b : bool) (n : N) : N := if b then n else 0.

Notation "'do' x <- a ; b" := (match a with Some x => b | None => None end)
  (at level 200, x name, a at level 100, b at level 200).

(* the call that is asked for; names and paths without padding *)
Definition wanted (f : pyfn) (g : string -> option pobj) : option call :=
  let ls flags :=
    do n <- w_name (g "lockspace"); do h <- w_num 64 None (g "host_id"); do p <- w_path (g "path");
    do o <- w_num 64 (Some 0) (g "offset"); Some (Pls n h flags p o) in
  let disk flags n :=
    do p <- w_path (g "path"); do o <- w_num 64 (Some 0) (g "offset"); do a <- w_align (g "align");
    do s <- w_sector (g "sector"); Some (Pls n 0 (a + s + flags) p o) in
  let res lver flags :=
    do n <- w_name (g "lockspace"); do r <- w_name (g "resource"); do d <- w_disks (g "disks");
    Some (Pres n r lver flags d) in
  match f with
  | FGetAlignment => do p <- w_path (g "path"); Some (LDirectAlign p)
  | FWriteLockspace =>
      do n <- w_name (g "lockspace"); do l <- disk 0 n; do m <- w_i32 0 (g "max_hosts");
      do i <- w_num 32 (Some 0) (g "iotimeout"); Some (LWriteLockspace l m 0 i)
  | FReadLockspace => do l <- disk 0 []; Some (LReadLockspace l)
  | FReadResource => do l <- disk 0 []; Some (LReadResource (Pres [] [] 0 (l_flags l) [(l_path l, l_off l)]))
  | FWriteResource =>
      do a <- w_align (g "align"); do s <- w_sector (g "sector"); do r <- res 0 (a + s);
      do m <- w_i32 0 (g "max_hosts"); do n <- w_i32 0 (g "num_hosts"); do c <- w_bool false (g "clear");
      Some (LWriteResource r m n (bit c 1))
  | FAddLockspace =>
      do l <- ls 0; do i <- w_num 32 (Some 0) (g "iotimeout"); do w <- w_bool true (g "wait");
      Some (LAddLockspace l (bit (negb w) 1) i)
  | FInqLockspace => do l <- ls 0; do w <- w_bool false (g "wait"); Some (LInqLockspace l (bit w 1))
  | FRemLockspace =>
      do l <- ls 0; do w <- w_bool true (g "wait"); do u <- w_bool false (g "unused");
      Some (LRemLockspace l (bit (negb w) 1 + bit u 2))
  | FGetHosts => do n <- w_text (g "lockspace"); do h <- w_num 64 (Some 0) (g "host_id"); Some (LGetHosts n h)
  | FAcquire =>
      do fd <- w_i32 (-1) (g "slkfd"); do pid <- w_i32 (-1) (g "pid"); do sh <- w_bool false (g "shared");
      do lvb <- w_bool false (g "lvb"); do v <- w_version (g "version");
      do r <- res (match v with Some x => x | None => 0 end) (bit sh 4 + match v with Some _ => 1 | None => 0 end);
      if ((fd =? -1) && (pid =? -1))%Z then None else Some (LAcquire fd pid (bit lvb 1) r)
  | FInquire =>
      do fd <- w_i32 (-1) (g "slkfd"); do pid <- w_i32 (-1) (g "pid");
      if ((fd =? -1) && (pid =? -1))%Z then None else Some (LInquire fd pid)
  | FRelease =>
      do r <- res 0 0; do fd <- w_i32 (-1) (g "slkfd"); do pid <- w_i32 (-1) (g "pid"); Some (LRelease fd pid r)
  | FRequest =>
      do act <- w_int 0 2147483647 (Some 2%Z) (g "action"); do v <- w_version (g "version");
      do r <- res (match v with Some x => x | None => 0 end) (match v with Some _ => 1 | None => 0 end);
      Some (LRequest (match v with Some _ => 0 | None => 1 end) (Z.to_N act) r)
  | FReadOwners =>
      do a <- w_align (g "align"); do s <- w_sector (g "sector"); do r <- res 0 (a + s); Some (LReadOwners r)
  | FRegEvent => do n <- w_text (g "lockspace"); Some (LRegEvent n)
  | FGetEvent => do fd <- w_int (-2147483648) 2147483647 None (g "fd"); Some (LGetEvent fd)
  | FEndEvent => do fd <- w_int (-2147483648) 2147483647 None (g "fd"); do n <- w_text (g "lockspace"); Some (LEndEvent fd n)
  | FSetEvent =>
      do n <- w_text (g "lockspace"); do h <- w_num 64 None (g "host_id"); do e <- w_num 64 None (g "generation");
      do v <- w_num 64 None (g "event"); do d <- w_num 64 (Some 0) (g "data"); do x <- w_num 32 (Some 0) (g "flags");
      Some (LSetEvent n h e v d x)
  | FSetLvb =>
      do r <- res 0 0; do b <- w_bytes (g "data");
      if (Z.of_nat (List.length b) <? 2147483648)%Z then Some (LSetLvb r b (Z.of_nat (List.length b))) else None
  | FGetLvb =>
      do r <- res 0 0; do n <- w_int 1 4096 None (g "size"); Some (LGetLvb r (Z.to_N n))
  end.

(* what the library reads from a name or a path: up to the first 0 *)
Fixpoint text (b : bytes) : bytes := match b with [] => [] | c :: r => if N.eq_dec c 0 then [] else c :: text r end.
Definition rd_ls (l : pls) : pls := Pls (text (l_name l)) (l_host l) (l_flags l) (text (l_path l)) (l_off l).
Definition rd_res (r : pres_) : pres_ :=
  Pres (text (r_ls r)) (text (r_name r)) (r_lver r) (r_flags r) (map (fun d => (text (fst d), snd d)) (r_disks r)).
Definition reads (c : call) : call :=
  match c with
  | LDirectAlign p => LDirectAlign (text p)
  | LWriteLockspace l m x i => LWriteLockspace (rd_ls l) m x i
  | LReadLockspace l => LReadLockspace (rd_ls l)
  | LReadResource r => LReadResource (rd_res r)
  | LWriteResource r m n x => LWriteResource (rd_res r) m n x
  | LAddLockspace l x i => LAddLockspace (rd_ls l) x i
  | LInqLockspace l x => LInqLockspace (rd_ls l) x
  | LRemLockspace l x => LRemLockspace (rd_ls l) x
  | LAcquire fd pid x r => LAcquire fd pid x (rd_res r)
  | LRelease fd pid r => LRelease fd pid (rd_res r)
  | LRequest x a r => LRequest x a (rd_res r)
  | LReadOwners r => LReadOwners (rd_res r)
  | LSetLvb r d n => LSetLvb (rd_res r) d n
  | LGetLvb r n => LGetLvb (rd_res r) n
  | _ => c
  end.
(* the buffers: names fill 48 bytes, paths have room for the final 0 *)
Definition ls_bufs (l : pls) : Prop := List.length (l_name l) = 48%nat /\ List.length (l_path l) = 1024%nat /\ In 0 (l_path l).
Definition res_bufs (r : pres_) : Prop :=
  List.length (r_ls r) = 48%nat /\ List.length (r_name r) = 48%nat /\
  Forall (fun d => List.length (fst d) = 1024%nat /\ In 0 (fst d)) (r_disks r).
Definition bufs (c : call) : Prop :=
  match c with
  | LDirectAlign p => List.length p = 1024%nat /\ In 0 p
  | LWriteLockspace l _ _ _ | LReadLockspace l | LAddLockspace l _ _ | LInqLockspace l _ | LRemLockspace l _ => ls_bufs l
  | LReadResource r | LWriteResource r _ _ _ | LAcquire _ _ _ r | LRelease _ _ r | LRequest _ _ r | LReadOwners r
  | LSetLvb r _ _ | LGetLvb r _ => res_bufs r
  | _ => True
  end.

(* ---- proofs ---- *)
Definition arg (g : string -> option pobj) (p : param) : option cv :=
  let '(n, u, d) := p in match g n with Some o => conv u o | None => d end.
Fixpoint args_of (g : string -> option pobj) (ps : list param) : option (list cv) :=
  match ps with
  | [] => Some []
  | p :: r => match arg g p, args_of g r with Some v, Some l => Some (v :: l) | _, _ => None end
  end.
Definition pname (p : param) : string := fst (fst p).

Lemma sig_params f : signature f = map pname (params f).
Proof. destruct f; reflexivity. Qed.
Lemma sig_nodup f : NoDup (signature f).
Proof. destruct f; cbn [signature]; repeat constructor; cbn [In]; intuition discriminate. Qed.

Lemma named_get k kw : named k kw = kw_get k kw.
Proof.
  induction kw as [|[n o] r IH]; [reflexivity|]. cbn [named kw_get]. rewrite IH.
  destruct (string_dec n k) as [->|NE]; [rewrite String.eqb_refl; reflexivity|].
  apply String.eqb_neq in NE. rewrite NE. reflexivity.
Qed.

Lemma kw_get_none k kw : kw_get k kw = None <-> (forall o, ~ In (k, o) kw).
Proof.
  induction kw as [|[n o] r IH]; cbn [kw_get]; [split; auto|].
  destruct (String.eqb_spec n k) as [->|NE].
  - split; [discriminate|]. intros H. destruct (H o). left. reflexivity.
  - rewrite IH. split; intros H x; [intros [E|I]; [congruence|apply (H x I)]|intros I; apply (H x); right; exact I].
Qed.

Lemma given_nil sig kw k : given sig [] kw k = kw_get k kw.
Proof. destruct sig; cbn; apply named_get. Qed.

Lemma given_notin : forall sig pos kw k, ~ In k sig -> given sig pos kw k = kw_get k kw.
Proof.
  induction sig as [|n ns IH]; intros pos kw k H; destruct pos as [|o ps]; cbn [given]; try apply named_get.
  destruct (string_dec n k) as [->|]; [destruct H; left; reflexivity|]. apply IH. intros I. apply H. right. exact I.
Qed.

Lemma args_ext g h ps : (forall p, In p ps -> g (pname p) = h (pname p)) -> args_of g ps = args_of h ps.
Proof.
  induction ps as [|p r IH]; intros H; [reflexivity|]. cbn [args_of].
  rewrite IH by (intros; apply H; right; assumption).
  replace (arg g p) with (arg h p); [reflexivity|]. unfold arg. destruct p as [[n u] d].
  specialize (H (n, u, d) (or_introl eq_refl)). cbn in H. rewrite H. reflexivity.
Qed.

Lemma bind_nil ps kw : bind ps [] kw = args_of (fun k => kw_get k kw) ps.
Proof.
  induction ps as [|[[n u] d] r IH]; [reflexivity|]. cbn [bind args_of arg]. rewrite IH.
  destruct (kw_get n kw); reflexivity.
Qed.

Lemma bind_given : forall ps pos kw, NoDup (map pname ps) ->
  (List.length pos <= List.length ps)%nat ->
  (forall k, In k (firstn (List.length pos) (map pname ps)) -> kw_get k kw = None) ->
  bind ps pos kw = args_of (given (map pname ps) pos kw) ps.
Proof.
  induction ps as [|[[n u] d] r IH]; intros pos kw ND L F.
  - destruct pos; [reflexivity|cbn in L; lia].
  - destruct pos as [|o pos].
    { rewrite bind_nil. apply args_ext. intros p _. symmetry. apply given_nil. }
    cbn [map List.length] in *. inversion ND as [|? ? NI ND']; subst.
    cbn [bind args_of arg given pname fst]. rewrite (F n) by (left; reflexivity).
    destruct (string_dec n n) as [_|]; [|congruence]. destruct (conv u o); [|reflexivity].
    rewrite IH; auto; [|lia|intros k I; apply F; right; exact I].
    replace (args_of (fun k => if string_dec n k then Some o else given (map pname r) pos kw k) r)
      with (args_of (given (map pname r) pos kw) r); [reflexivity|].
    apply args_ext. intros p I. destruct (string_dec n (pname p)) as [E|]; [|reflexivity].
    exfalso. apply NI. change (pname (n, u, d)) with n. rewrite E. apply in_map. exact I.
Qed.

Lemma bind_some_form : forall ps pos kw l, bind ps pos kw = Some l ->
  (List.length pos <= List.length ps)%nat /\ (forall k, In k (firstn (List.length pos) (map pname ps)) -> kw_get k kw = None).
Proof.
  induction ps as [|[[n u] d] r IH]; intros pos kw l H.
  - destruct pos; [|discriminate]. split; [cbn; lia|intros k []].
  - destruct pos as [|o pos]; [split; [cbn; lia|intros k []]|]. cbn [bind] in H.
    destruct (kw_get n kw) eqn:E; [discriminate|]. destruct (conv u o); [|discriminate].
    destruct (bind r pos kw) eqn:B; [|discriminate]. destruct (IH _ _ _ B) as [L F]. split; [cbn; lia|].
    cbn [List.length map firstn pname fst]. intros k [<-|I]; auto.
Qed.

Lemma known_spec ps kw : kw_known ps kw = true <-> (forall k o, In (k, o) kw -> In k (map pname ps)).
Proof.
  unfold kw_known. rewrite forallb_forall. split.
  - intros H k o I. specialize (H _ I). apply existsb_exists in H. destruct H as (p & IP & E).
    cbn in E. apply String.eqb_eq in E. subst k. apply (in_map pname). exact IP.
  - intros H [k o] I. apply existsb_exists. specialize (H _ _ I). apply in_map_iff in H.
    destruct H as (p & E & IP). exists p. split; auto. apply String.eqb_eq. exact E.
Qed.

(* the binding's parser finds the arguments Python's rules give, and nothing else *)
Lemma run_wf f pos kw : well_formed f pos kw ->
  run f pos kw = match args_of (given (signature f) pos kw) (params f) with Some l => body f l | None => None end.
Proof.
  intros (L & K & P). unfold run, parse.
  replace (positional f && _) with false by (symmetry; destruct f; cbn; try reflexivity; rewrite P; reflexivity).
  replace (kw_known (params f) kw) with true.
  - rewrite bind_given; rewrite <- ?sig_params; auto using sig_nodup.
    + rewrite sig_params, map_length in L. exact L.
    + intros k I. apply kw_get_none. intros o J. apply (K _ _ J). exact I.
  - symmetry. apply known_spec. intros k o I. rewrite <- sig_params. apply (K _ _ I).
Qed.

Lemma run_form f pos kw c : run f pos kw = Some c -> well_formed f pos kw.
Proof.
  unfold run, parse. destruct (positional f && _) eqn:P; [discriminate|].
  destruct (kw_known (params f) kw) eqn:KN; [|discriminate].
  destruct (bind (params f) pos kw) as [l|] eqn:B; [|discriminate]. intros _.
  destruct (bind_some_form _ _ _ _ B) as [L F]. rewrite known_spec in KN.
  split; [rewrite sig_params, map_length; exact L|]. split.
  - intros k o I. rewrite sig_params. split; [eauto|]. intros J. specialize (F _ J). rewrite kw_get_none in F. apply (F o I).
  - destruct f; auto; destruct kw; auto; discriminate.
Qed.

Lemma nul_nonzero b : has_nul b = negb (nonzero b).
Proof. unfold has_nul, nonzero. induction b as [|c r IH]; [reflexivity|]. cbn. rewrite IH. destruct (c =? 0); reflexivity. Qed.

Lemma upto_nonzero b : nonzero b = true -> upto_nul b = b.
Proof. induction b as [|c r IH]; [reflexivity|]. cbn. destruct (c =? 0); [discriminate|]. cbn. intros H. rewrite IH; auto. Qed.

Lemma text_app_zeros b n : nonzero b = true -> text (b ++ repeat 0 n) = b.
Proof.
  induction b as [|c r IH]; cbn [app nonzero forallb].
  - intros _. destruct n; reflexivity.
  - intros H. apply andb_prop in H. destruct H as [H1 H2]. cbn [text]. destruct (N.eq_dec c 0) as [->|]; [discriminate|].
    rewrite IH; auto.
Qed.

Lemma text_buf n m b : nonzero b = true -> (List.length b <= n)%nat -> text (strncpy n m b) = b.
Proof. intros H L. unfold strncpy. rewrite upto_nonzero, firstn_all2 by auto. apply text_app_zeros. exact H. Qed.

Lemma name_text b : nonzero b && Nat.leb (List.length b) 48 = true -> text (name_buf b) = b.
Proof. intros H. apply andb_prop in H. destruct H as [H L]. apply Nat.leb_le in L. apply text_buf; auto. Qed.
Lemma path_text b : nonzero b && Nat.leb (List.length b) 1023 = true -> text (path_buf b) = b.
Proof. intros H. apply andb_prop in H. destruct H as [H L]. apply Nat.leb_le in L. apply text_buf; auto. Qed.

(* what a wanted value says about the parser *)
Lemma a_name g k b : w_name (g k) = Some b -> arg g (req k UBytes) = Some (CB b) /\ text (name_buf b) = b.
Proof.
  unfold w_name, arg, req. destruct (g k) as [[]|]; try discriminate. destruct (_ && _) eqn:E; [|discriminate].
  intros [= ->]. split; [reflexivity|apply name_text; exact E].
Qed.
Lemma a_text g k b : w_text (g k) = Some b -> arg g (req k UBytes) = Some (CB b) /\ upto_nul b = b.
Proof.
  unfold w_text, arg, req. destruct (g k) as [[]|]; try discriminate. destruct (nonzero _) eqn:E; [|discriminate].
  intros [= ->]. split; [reflexivity|apply upto_nonzero; exact E].
Qed.
Lemma a_bytes g k b : w_bytes (g k) = Some b -> arg g (req k UBytes) = Some (CB b).
Proof. unfold w_bytes, arg, req. destruct (g k) as [[]|]; try discriminate. intros [= ->]. reflexivity. Qed.
Lemma c_path o b : w_path (Some o) = Some b -> conv UPath o = Some (CB b) /\ text (path_buf b) = b /\ (List.length b <= 1023)%nat.
Proof.
  unfold w_path. destruct o as [x|x| | | | | ]; try discriminate; destruct (_ && _) eqn:E; try discriminate; intros [= ->];
    (split; [cbn; rewrite nul_nonzero; apply andb_prop in E; destruct E as [-> _]; reflexivity|]);
    (split; [apply path_text; exact E|]); apply andb_prop in E; destruct E as [_ E]; apply Nat.leb_le in E; exact E.
Qed.
Lemma a_path g k b : w_path (g k) = Some b ->
  arg g (req k UPath) = Some (CB b) /\ text (path_buf b) = b /\ (List.length b <= 1023)%nat.
Proof. unfold arg, req. destruct (g k) as [o|]; [apply c_path|discriminate]. Qed.
Lemma wrap_id w z : (0 <= z)%Z -> (z < 2 ^ w)%Z -> wrap w z = Z.to_N z.
Proof. intros. unfold wrap. rewrite Z.mod_small by lia. reflexivity. Qed.
Lemma c_num64 z n : w_num 64 None (Some (OInt z)) = Some n -> conv UU64 (OInt z) = Some (CN n).
Proof.
  unfold w_num. destruct (_ && _) eqn:E; [|discriminate]. intros [= <-]. cbn [conv]. rewrite wrap_id; auto; [lia|].
  apply andb_prop in E. destruct E as [A B]. change (2 ^ 64) with 18446744073709551616 in B. change (2 ^ 64)%Z with 18446744073709551616%Z. lia.
Qed.
Lemma a_num64 g k d n : w_num 64 d (g k) = Some n -> arg g (k, UU64, match d with Some x => Some (CN x) | None => None end) = Some (CN n).
Proof.
  unfold arg. destruct (g k) as [o|]; [|cbn; intros ->; reflexivity]. destruct o; try discriminate. apply c_num64.
Qed.
Lemma a_num32 g k d n : w_num 32 d (g k) = Some n -> arg g (k, UU32, match d with Some x => Some (CN x) | None => None end) = Some (CN n).
Proof.
  unfold arg. destruct (g k) as [o|]; [|cbn; intros ->; reflexivity]. destruct o; try discriminate.
  unfold w_num. destruct (_ && _) eqn:E; [|discriminate]. intros [= <-]. cbn [conv]. rewrite wrap_id; auto; [lia|].
  apply andb_prop in E. destruct E as [A B]. change (2 ^ 32) with 4294967296 in B. change (2 ^ 32)%Z with 4294967296%Z. lia.
Qed.
Lemma sfits32 z : sfits 32 z = ((-2147483648 <=? z) && (z <=? 2147483647))%Z.
Proof. unfold sfits. change (2 ^ (32 - 1))%Z with 2147483648%Z. lia. Qed.
Lemma sfits64 z : sfits 64 z = ((-9223372036854775808 <=? z) && (z <=? 9223372036854775807))%Z.
Proof. unfold sfits. change (2 ^ (64 - 1))%Z with 9223372036854775808%Z. lia. Qed.
Lemma a_int g k d z : w_int (-2147483648) 2147483647 d (g k) = Some z ->
  arg g (k, UI32, match d with Some x => Some (CZ x) | None => None end) = Some (CZ z).
Proof.
  unfold arg. destruct (g k) as [o|]; [|cbn; intros ->; reflexivity]. destruct o; try discriminate.
  unfold w_int. cbn [conv]. rewrite sfits32. destruct (_ && _); [|discriminate]. intros [= ->]. reflexivity.
Qed.
Lemma a_i32 g k d z : w_i32 d (g k) = Some z -> arg g (opt k UI32 (CZ d)) = Some (CZ z).
Proof. apply a_int. Qed.
Lemma a_bool g k d b : w_bool d (g k) = Some b ->
  exists z, arg g (opt k UI32 (CZ (if d then 1 else 0)%Z)) = Some (CZ z) /\ truth z = b.
Proof.
  unfold w_bool. destruct (w_int _ _ _ _) as [z|] eqn:E; [|discriminate]. intros [= <-]. exists z. split; [|reflexivity].
  apply a_int in E. exact E.
Qed.
Lemma a_align g k a : w_align (g k) = Some a ->
  exists z, arg g (opt k UI64 (CZ 1048576)) = Some (CZ z) /\ align_flag z = Some a.
Proof.
  unfold w_align. destruct (w_int _ _ _ _) as [z|] eqn:E; [|discriminate]. intros H. exists z. split.
  - unfold arg, opt. destruct (g k) as [o|]; [|cbn in E; injection E as <-; reflexivity]. destruct o; try discriminate.
    unfold w_int in E. cbn [conv]. rewrite sfits64. destruct (_ && _); [|discriminate]. injection E as ->. reflexivity.
  - unfold align_flag.
    destruct (Z.eqb_spec z 1048576) as [->|]; [exact H|]. destruct (Z.eqb_spec z 2097152) as [->|]; [exact H|].
    destruct (Z.eqb_spec z 4194304) as [->|]; [exact H|]. destruct (Z.eqb_spec z 8388608) as [->|]; [exact H|].
    exfalso. clear E. repeat (match type of H with context [match ?x with _ => _ end] => destruct x end; try discriminate; try congruence).
Qed.
Lemma a_sector g k a : w_sector (g k) = Some a ->
  exists z, arg g (opt k UI32 (CZ 512)) = Some (CZ z) /\ sector_flag z = Some a.
Proof.
  unfold w_sector. destruct (w_i32 _ _) as [z|] eqn:E; [|discriminate]. intros H. exists z. split; [apply a_i32; exact E|].
  unfold sector_flag. destruct (Z.eqb_spec z 512) as [->|]; [exact H|]. destruct (Z.eqb_spec z 4096) as [->|]; [exact H|].
  exfalso. clear E. repeat (match type of H with context [match ?x with _ => _ end] => destruct x end; try discriminate; try congruence).
Qed.
Lemma flags_sum a s x y : align_flag a = Some x -> sector_flag s = Some y -> size_flags a s = Some (x + y).
Proof.
  unfold size_flags. intros A S. rewrite A, S. f_equal. unfold align_flag, sector_flag in *.
  repeat match goal with H : (if ?b then _ else _) = Some _ |- _ => destruct b; try discriminate; try (injection H as <-) end; reflexivity.
Qed.
Definition dtext (d : bytes * N) : bytes * N := (text (fst d), snd d).
Lemma d_disks l ds : w_disks_ l = Some ds -> exists l', parse_disks l = Some l' /\ map dtext l' = ds.
Proof.
  revert ds. induction l as [|o r IH]; intros ds H; [injection H as <-; exists []; auto|]. cbn [w_disks_] in H.
  destruct (w_disk o) as [d|] eqn:D; [|discriminate]. destruct (w_disks_ r) as [e|]; [|discriminate]. injection H as <-.
  destruct (IH _ eq_refl) as (l' & P & M). cbn [parse_disks]. rewrite P.
  destruct o as [| | | | |t|]; try discriminate. destruct t as [|p [|q [|]]]; try discriminate.
  cbn [w_disk parse_single_disk] in *. destruct (w_path (Some p)) as [b|] eqn:WP; [|discriminate].
  destruct (c_path _ _ WP) as (-> & T & L). destruct q as [| |z| | | |]; try discriminate.
  destruct (w_num 64 None (Some (OInt z))) as [n|] eqn:WN; [|discriminate]. injection D as <-.
  rewrite (c_num64 _ _ WN). change (SANLK_PATH_LEN - 1)%nat with 1023%nat.
  replace (Nat.ltb 1023 (List.length b)) with false by (symmetry; apply Nat.ltb_ge; exact L).
  exists ((path_buf b, n) :: l'). split; [reflexivity|]. cbn [map]. rewrite M. unfold dtext at 1. cbn [fst snd]. rewrite T. reflexivity.
Qed.
Lemma a_disks g k ds : w_disks (g k) = Some ds ->
  exists l l', arg g (req k UList) = Some (CL l) /\ parse_disks l = Some l' /\ map dtext l' = ds.
Proof.
  unfold w_disks, arg, req. destruct (g k) as [o|]; [|discriminate]. destruct o as [| | | |l| |]; try discriminate.
  intros H. destruct (d_disks _ _ H) as (l' & P & M). exists l, l'. auto.
Qed.
Lemma a_version g k v : w_version (g k) = Some v ->
  exists o, arg g (opt k UObj (CO ONone)) = Some (CO o) /\
    match v with None => o = ONone | Some x => version_arg o = Some x /\ o <> ONone end.
Proof.
  unfold w_version, arg, opt. destruct (g k) as [o|]; [|intros [= <-]; exists ONone; auto].
  destruct o as [| |z| | | |]; try discriminate; [|intros [= <-]; exists ONone; auto].
  destruct (_ && _) eqn:E; [|discriminate]. intros [= <-]. exists (OInt z). split; [reflexivity|]. split; [|discriminate].
  change (2 ^ 64 - 1)%Z with 18446744073709551615%Z in E.
  unfold version_arg. rewrite wrap_id by (change (2 ^ 64)%Z with 18446744073709551616%Z; lia). change (2 ^ 64 - 1) with 18446744073709551615.
  replace (Z.to_N z =? 18446744073709551615) with false by lia. reflexivity.
Qed.

Ltac undo H :=
  repeat match type of H with
  | match ?a with Some _ => _ | None => None end = Some _ =>
      let E := fresh "E" in destruct a eqn:E; [|discriminate H]
  end.
Ltac facts :=
  repeat match goal with
  | E : w_name (?g ?k) = Some _ |- _ => apply a_name in E; destruct E
  | E : w_text (?g ?k) = Some _ |- _ => apply a_text in E; destruct E
  | E : w_bytes (?g ?k) = Some _ |- _ => apply a_bytes in E
  | E : w_path (?g ?k) = Some _ |- _ => apply a_path in E; destruct E as (? & ? & ?)
  | E : w_num 64 _ (?g ?k) = Some _ |- _ => apply a_num64 in E; cbv iota beta in E
  | E : w_num 32 _ (?g ?k) = Some _ |- _ => apply a_num32 in E; cbv iota beta in E
  | E : w_i32 _ (?g ?k) = Some _ |- _ => apply a_i32 in E
  | E : w_int (-2147483648) _ _ (?g ?k) = Some _ |- _ => apply a_int in E; cbv iota beta in E
  | E : w_bool _ (?g ?k) = Some _ |- _ => apply a_bool in E; destruct E as (? & ? & ?); cbv iota in *
  | E : w_align (?g ?k) = Some _ |- _ => apply a_align in E; destruct E as (? & ? & ?)
  | E : w_sector (?g ?k) = Some _ |- _ => apply a_sector in E; destruct E as (? & ? & ?)
  | E : w_disks (?g ?k) = Some _ |- _ => apply a_disks in E; destruct E as (? & ? & ? & ? & ?)
  | E : w_version (?g ?k) = Some _ |- _ => apply a_version in E; destruct E as (? & ? & ?)
  end.
Lemma a_act g k z : w_int 0 2147483647 (Some 2%Z) (g k) = Some z ->
  arg g (opt k UI32 (CZ 2)) = Some (CZ z) /\ wrap 32 z = Z.to_N z.
Proof.
  unfold w_int, arg, opt. destruct (g k) as [o|]; [|intros [= <-]; split; reflexivity].
  destruct o; try discriminate. destruct (_ && _) eqn:E; [|discriminate]. intros [= ->].
  assert ((0 <= z <= 2147483647)%Z) by lia. cbn [conv]. rewrite sfits32.
  replace (_ && _) with true by lia. split; [reflexivity|]. apply wrap_id; [lia|]. change (2 ^ 32)%Z with 4294967296%Z. lia.
Qed.
Lemma a_size g k z : w_int 1 4096 None (g k) = Some z ->
  arg g (req k UU32) = Some (CN (Z.to_N z)) /\ ((Z.to_N z <? 1) || (4096 <? Z.to_N z) = false).
Proof.
  unfold w_int, arg, req. destruct (g k) as [o|]; [|discriminate].
  destruct o; try discriminate. destruct (_ && _) eqn:E; [|discriminate]. intros [= ->].
  assert ((1 <= z <= 4096)%Z) by lia. cbn [conv]. rewrite wrap_id by (change (2 ^ 32)%Z with 4294967296%Z; lia).
  split; [reflexivity|lia].
Qed.
Lemma as_int_id z : (0 <= z < 2147483648)%Z -> as_int z = z.
Proof.
  intros H. unfold as_int. rewrite Z.mod_small by (change (2 ^ 32)%Z with 4294967296%Z; lia).
  change (2 ^ 31)%Z with 2147483648%Z. replace (z <? 2147483648)%Z with true by lia. reflexivity.
Qed.

Ltac undo_all :=
  repeat match goal with
  | H : match ?a with Some _ => _ | None => None end = Some _ |- _ =>
      let E := fresh "E" in destruct a eqn:E; [|discriminate H]
  end.
Ltac put_args :=
  cbn [params args_of];
  repeat match goal with
  | E : arg ?g ?p = Some _ |- context [arg ?g ?p] => rewrite E
  | E : arg ?g (?k, ?u, ?d) = Some _ |- context [arg ?g (req ?k ?u)] => change (arg g (req k u)) with (arg g (k, u, d)); rewrite E
  | E : arg ?g (?k, ?u, ?d) = Some _ |- context [arg ?g (opt ?k ?u ?v)] => change (arg g (opt k u v)) with (arg g (k, u, d)); rewrite E
  end.
Lemma text_name_nil : text (name_buf []) = [].
Proof. reflexivity. Qed.
Ltac fin :=
  cbv beta iota delta [reads rd_ls rd_res mk_res l_name l_path l_host l_flags l_off r_ls r_name r_lver r_flags r_disks];
  change (fun d : bytes * N => (text (fst d), snd d)) with dtext;
  rewrite ?text_name_nil;
  repeat match goal with H : text _ = _ |- _ => rewrite H end;
  repeat match goal with H : upto_nul _ = _ |- _ => rewrite H end;
  repeat match goal with H : map dtext _ = _ |- _ => rewrite H end;
  repeat match goal with H : truth _ = _ |- _ => rewrite H end.

#[local] Opaque name_buf path_buf as_int wrap text version_arg parse_disks.

(* ---- theorems ---- *)
(* arguments that mean something reach the library as they are, however they are given *)
Theorem C89_delivered : forall f pos kw c, well_formed f pos kw ->
  wanted f (given (signature f) pos kw) = Some c -> exists c', run f pos kw = Some c' /\ reads c' = c.
Proof.
  intros f pos kw c WF. rewrite run_wf by exact WF. generalize (given (signature f) pos kw). clear WF. intros g H.
  destruct f; cbn [wanted] in H; cbv zeta in H; undo_all;
    try match goal with H : (if ?b then None else Some _) = Some _ |- _ => let B := fresh "B" in destruct b eqn:B; [discriminate H|] end;
    try match goal with H : (if ?b then Some _ else None) = Some _ |- _ => let B := fresh "B" in destruct b eqn:B; [|discriminate H] end;
    repeat match goal with H : Some _ = Some _ |- _ => injection H as <- end; facts;
    repeat match goal with
    | E : w_int 0 _ _ (?g ?k) = Some _ |- _ => apply a_act in E; destruct E
    | E : w_int 1 _ _ (?g ?k) = Some _ |- _ => apply a_size in E; destruct E
    end;
    put_args; cbn [body];
    repeat match goal with A : align_flag ?a = Some _, S : sector_flag ?s = Some _ |- _ => rewrite (flags_sum _ _ _ _ A S); clear A S end;
    repeat match goal with A : parse_disks _ = Some _ |- _ => rewrite A; clear A end.
  all: try match goal with |- context [as_int (Z.of_nat ?n)] => rewrite (as_int_id (Z.of_nat n)) by lia end.
  all: try (eexists; split; [reflexivity|]; fin; try reflexivity).
  all: try (match goal with x : bool, y : bool |- _ => destruct x, y; reflexivity end).
  all: rewrite ?N.add_0_r; try reflexivity.

  - change (SANLK_PATH_LEN - 1)%nat with 1023%nat.
    match goal with L : (_ <= 1023)%nat |- _ => apply Nat.ltb_ge in L; rewrite L end.
    eexists; split; [reflexivity|]. fin. cbn [map]. unfold dtext. cbn [fst snd]. fin. rewrite ?N.add_0_r. reflexivity.
  - rewrite B. destruct o as [ver|].
    + match goal with H : version_arg ?v = Some _ /\ _ |- _ => destruct H as [V NN]; destruct v; try contradiction; rewrite V end;
        eexists; (split; [reflexivity|]); fin; repeat match goal with |- context [bit ?b 4] => is_var b; destruct b end; reflexivity.
    + subst. eexists. split; [reflexivity|]. fin. rewrite N.add_0_r. reflexivity.
  - rewrite B. eexists. split; reflexivity.
  - destruct o as [ver|].
    + match goal with H : version_arg ?v = Some _ /\ _ |- _ => destruct H as [V NN]; destruct v; try contradiction; rewrite V end;
        eexists; (split; [reflexivity|]); fin; congruence.
    + subst. eexists. split; [reflexivity|]. fin. congruence.
  - match goal with H : (_ || _) = false |- _ => rewrite H end. eexists. split; [reflexivity|]. fin. reflexivity.
Qed.
Print Assumptions C89_delivered.

(* no name that is too long or has a null byte in it, no long path, no number out of range *)
Definition u64 (z : Z) : Prop := (0 <= z < 18446744073709551616)%Z.
Definition u32 (z : Z) : Prop := (0 <= z < 4294967296)%Z.
Definition plain (g : string -> option pobj) : Prop :=
  (forall k b, In k ["lockspace"; "resource"] -> g k = Some (OBytes b) -> ~ In 0 b /\ (List.length b <= 48)%nat) /\
  (forall b, g "path" = Some (OBytes b) \/ g "path" = Some (OStr b) -> (List.length b <= 1023)%nat) /\
  (forall k z, In k ["host_id"; "offset"; "generation"; "event"; "data"; "version"] -> g k = Some (OInt z) -> u64 z) /\
  (forall k z, In k ["iotimeout"; "flags"; "size"] -> g k = Some (OInt z) -> u32 z) /\
  (forall z, g "action" = Some (OInt z) -> (0 <= z)%Z) /\
  (forall l p z, g "disks" = Some (OList l) -> In (OTuple [p; OInt z]) l -> u64 z) /\
  (forall b, g "data" = Some (OBytes b) -> (Z.of_nat (List.length b) < 2147483648)%Z).
(* the full statement: whatever reaches the library is what was asked for *)
Definition C89_statement : Prop :=
  forall f pos kw c, run f pos kw = Some c -> wanted f (given (signature f) pos kw) = Some (reads c).

Lemma nonzero_in b : ~ In 0 b -> nonzero b = true.
Proof.
  intros H. apply forallb_forall. intros c I. destruct (N.eqb_spec c 0) as [->|]; [contradiction|reflexivity].
Qed.
Lemma b_name g k v : arg g (req k UBytes) = Some v -> (forall b, g k = Some (OBytes b) -> ~ In 0 b /\ (List.length b <= 48)%nat) ->
  exists b, v = CB b /\ w_name (g k) = Some b /\ w_text (g k) = Some b /\ text (name_buf b) = b /\ upto_nul b = b.
Proof.
  unfold arg, req. destruct (g k) as [o|]; [|discriminate]. destruct o as [b| | | | | |]; try discriminate. intros [= <-] H.
  destruct (H b eq_refl) as [NZ L]. apply nonzero_in in NZ. exists b.
  assert (E : nonzero b && Nat.leb (List.length b) 48 = true) by (rewrite NZ; apply Nat.leb_le; exact L).
  cbn [w_name w_text]. rewrite E, NZ. repeat split; auto; [apply name_text; exact E|apply upto_nonzero; exact NZ].
Qed.
Lemma b_bytes g k v : arg g (req k UBytes) = Some v -> exists b, v = CB b /\ g k = Some (OBytes b) /\ w_bytes (g k) = Some b.
Proof. unfold arg, req. destruct (g k) as [o|]; [|discriminate]. destruct o; try discriminate. intros [= <-]. eauto. Qed.
Lemma e_path o v : conv UPath o = Some v -> (forall b, o = OBytes b \/ o = OStr b -> (List.length b <= 1023)%nat) ->
  exists b, v = CB b /\ w_path (Some o) = Some b /\ text (path_buf b) = b /\ (List.length b <= 1023)%nat.
Proof.
  destruct o as [b|b| | | | |]; try discriminate; cbn [conv]; rewrite nul_nonzero; destruct (nonzero b) eqn:NZ; try discriminate;
    intros [= <-] H; assert (L : (List.length b <= 1023)%nat) by (apply H; auto); exists b; cbn [w_path];
    assert (E : nonzero b && Nat.leb (List.length b) 1023 = true) by (rewrite NZ; apply Nat.leb_le; exact L);
    rewrite E; repeat split; auto; apply path_text; exact E.
Qed.
Lemma b_path g k v : arg g (req k UPath) = Some v -> (forall b, g k = Some (OBytes b) \/ g k = Some (OStr b) -> (List.length b <= 1023)%nat) ->
  exists b, v = CB b /\ w_path (g k) = Some b /\ text (path_buf b) = b /\ (List.length b <= 1023)%nat.
Proof.
  unfold arg, req. destruct (g k) as [o|]; [|discriminate]. intros H P. apply e_path; auto.
  intros b [-> | ->]; apply P; auto.
Qed.
Lemma e_num64 z : u64 z -> wrap 64 z = Z.to_N z /\ w_num 64 None (Some (OInt z)) = Some (Z.to_N z).
Proof.
  unfold u64. intros H. split; [apply wrap_id; change (2 ^ 64)%Z with 18446744073709551616%Z; lia|].
  unfold w_num. change (2 ^ 64) with 18446744073709551616. replace (_ && _) with true by lia. reflexivity.
Qed.
Lemma b_num64 g k d v : arg g (k, UU64, match d with Some x => Some (CN x) | None => None end) = Some v ->
  (forall z, g k = Some (OInt z) -> u64 z) -> exists n, v = CN n /\ w_num 64 d (g k) = Some n.
Proof.
  unfold arg. destruct (g k) as [o|]; [|destruct d; [|discriminate]; intros [= <-] _; eauto].
  destruct o as [| |z| | | |]; try discriminate. intros [= <-] H. destruct (e_num64 z (H _ eq_refl)) as [-> W]. eauto.
Qed.
Lemma b_num32 g k d v : arg g (k, UU32, match d with Some x => Some (CN x) | None => None end) = Some v ->
  (forall z, g k = Some (OInt z) -> u32 z) -> exists n, v = CN n /\ w_num 32 d (g k) = Some n.
Proof.
  unfold arg. destruct (g k) as [o|]; [|destruct d; [|discriminate]; intros [= <-] _; eauto].
  destruct o as [| |z| | | |]; try discriminate. intros [= <-] H. specialize (H z eq_refl). unfold u32 in H.
  rewrite wrap_id by (change (2 ^ 32)%Z with 4294967296%Z; lia). eexists. split; [reflexivity|]. unfold w_num.
  change (2 ^ 32) with 4294967296. replace (_ && _) with true by lia. reflexivity.
Qed.
Lemma b_int g k d v : arg g (k, UI32, match d with Some x => Some (CZ x) | None => None end) = Some v ->
  exists z, v = CZ z /\ w_int (-2147483648) 2147483647 d (g k) = Some z.
Proof.
  unfold arg. destruct (g k) as [o|]; [|destruct d; [|discriminate]; intros [= <-]; eauto].
  destruct o as [| |z| | | |]; try discriminate. cbn [conv]. rewrite sfits32. unfold w_int.
  destruct (_ && _); [|discriminate]. intros [= <-]. eauto.
Qed.
Lemma b_bool g k (d : bool) v : arg g (opt k UI32 (CZ (if d then 1 else 0)%Z)) = Some v ->
  exists z, v = CZ z /\ w_bool d (g k) = Some (truth z).
Proof.
  intros H. apply (b_int g k (Some (if d then 1 else 0)%Z)) in H. destruct H as (z & -> & W). exists z. split; auto.
  unfold w_bool. rewrite W. reflexivity.
Qed.
Lemma b_align g k v : arg g (opt k UI64 (CZ 1048576)) = Some v ->
  exists z, v = CZ z /\ forall a, align_flag z = Some a -> w_align (g k) = Some a.
Proof.
  intros H. assert (X : exists z, v = CZ z /\ w_int (-9223372036854775808) 9223372036854775807 (Some 1048576%Z) (g k) = Some z).
  { unfold arg, opt in H. destruct (g k) as [o|]; [|injection H as <-; eauto]. destruct o as [| |z| | | |]; try discriminate.
    cbn [conv] in H. rewrite sfits64 in H. unfold w_int. destruct (_ && _); [|discriminate]. injection H as <-. eauto. }
  destruct X as (z & -> & W). exists z. split; auto. intros a A. unfold w_align. rewrite W. unfold align_flag in A.
  repeat match type of A with (if (?x =? ?y)%Z then _ else _) = _ => destruct (Z.eqb_spec x y) as [->|]; [exact A|] end. discriminate.
Qed.
Lemma b_sector g k v : arg g (opt k UI32 (CZ 512)) = Some v ->
  exists z, v = CZ z /\ forall a, sector_flag z = Some a -> w_sector (g k) = Some a.
Proof.
  intros H. apply (b_int g k (Some 512%Z)) in H. destruct H as (z & -> & W). exists z. split; auto. intros a A.
  unfold w_sector, w_i32. rewrite W. unfold sector_flag in A.
  repeat match type of A with (if (?x =? ?y)%Z then _ else _) = _ => destruct (Z.eqb_spec x y) as [->|]; [exact A|] end. discriminate.
Qed.
Lemma size_split a s x : size_flags a s = Some x -> exists y z, align_flag a = Some y /\ sector_flag s = Some z /\ x = y + z.
Proof.
  intros H. unfold size_flags in H. destruct (align_flag a) eqn:A; [|discriminate]. destruct (sector_flag s) eqn:S; [|discriminate].
  pose proof (flags_sum _ _ _ _ A S) as F. unfold size_flags in F. rewrite A, S, H in F. injection F as ->. eauto.
Qed.
#[local] Transparent parse_disks.
Lemma e_disks l ds : parse_disks l = Some ds -> (forall p z, In (OTuple [p; OInt z]) l -> u64 z) -> w_disks_ l = Some (map dtext ds).
Proof.
  revert ds. induction l as [|o r IH]; intros ds H U; [injection H as <-; reflexivity|]. cbn [parse_disks] in H.
  destruct (parse_single_disk o) as [d|] eqn:D; [|discriminate]. destruct (parse_disks r) as [e|]; [|discriminate]. injection H as <-.
  cbn [w_disks_ map]. rewrite (IH _ eq_refl) by (intros; eapply U; right; eassumption).
  destruct o as [| | | | |t|]; try discriminate. destruct t as [|p [|q [|]]]; try discriminate.
  cbn [parse_single_disk w_disk] in *. destruct (conv UPath p) as [[b| | | |]|] eqn:CP; try discriminate.
  destruct q as [| |z| | | |]; try discriminate. cbn [conv] in D.
  destruct (Nat.ltb_spec (SANLK_PATH_LEN - 1) (List.length b)) as [|L]; [discriminate|]. injection D as <-.
  change (SANLK_PATH_LEN - 1)%nat with 1023%nat in L.
  assert (PB : forall x, p = OBytes x \/ p = OStr x -> (List.length x <= 1023)%nat).
  { intros x [-> | ->]; cbn [conv] in CP; destruct (has_nul x); try discriminate; injection CP as ->; exact L. }
  destruct (e_path _ _ CP PB) as (b' & [= <-] & -> & T & _).
  destruct (e_num64 z (U p z (or_introl eq_refl))) as [-> ->]. change (dtext (path_buf b, Z.to_N z)) with (text (path_buf b), Z.to_N z). rewrite T. reflexivity.
Qed.
#[local] Opaque parse_disks.
Lemma b_disks g k v : arg g (req k UList) = Some v -> (forall l p z, g k = Some (OList l) -> In (OTuple [p; OInt z]) l -> u64 z) ->
  exists l, v = CL l /\ forall ds, parse_disks l = Some ds -> w_disks (g k) = Some (map dtext ds).
Proof.
  unfold arg, req. destruct (g k) as [o|]; [|discriminate]. destruct o as [| | | |l| |]; try discriminate. intros [= <-] H.
  exists l. split; auto. intros ds P. cbn [w_disks]. apply e_disks; eauto.
Qed.
#[local] Transparent version_arg.
Lemma b_version g k v : arg g (opt k UObj (CO ONone)) = Some v -> (forall z, g k = Some (OInt z) -> u64 z) ->
  exists o, v = CO o /\ (o = ONone -> w_version (g k) = Some None) /\ (forall x, version_arg o = Some x -> w_version (g k) = Some (Some x)).
Proof.
  unfold arg, opt. destruct (g k) as [o|]; intros [= <-] H.
  - exists o. split; [reflexivity|]. split; [intros ->; reflexivity|]. intros x V.
    destruct o as [| |z| | | |]; try discriminate. destruct (e_num64 z (H _ eq_refl)) as [W _]. unfold version_arg in V. rewrite W in V.
    specialize (H z eq_refl). unfold u64 in H. change (2 ^ 64 - 1) with 18446744073709551615 in V.
    destruct (N.eqb_spec (Z.to_N z) 18446744073709551615); [discriminate|]. injection V as <-.
    unfold w_version. change (2 ^ 64 - 1)%Z with 18446744073709551615%Z. replace (_ && _) with true by lia. reflexivity.
  - exists ONone. split; [reflexivity|]. split; [reflexivity|discriminate].
Qed.
#[local] Opaque version_arg.
Lemma b_act g k v : arg g (opt k UI32 (CZ 2)) = Some v -> (forall z, g k = Some (OInt z) -> (0 <= z)%Z) ->
  exists z, v = CZ z /\ w_int 0 2147483647 (Some 2%Z) (g k) = Some z /\ wrap 32 z = Z.to_N z.
Proof.
  unfold arg, opt. destruct (g k) as [o|]; [|intros [= <-] _; exists 2%Z; repeat split; reflexivity].
  destruct o as [| |z| | | |]; try discriminate. cbn [conv]. rewrite sfits32. destruct (_ && _) eqn:E; [|discriminate].
  intros [= <-] H. specialize (H z eq_refl). exists z. split; auto. unfold w_int. replace (_ && _) with true by lia. split; auto.
  apply wrap_id; [lia|]. change (2 ^ 32)%Z with 4294967296%Z. lia.
Qed.
Lemma b_size g k v : arg g (req k UU32) = Some v -> (forall z, g k = Some (OInt z) -> u32 z) ->
  exists n, v = CN n /\ ((n <? 1) || (4096 <? n) = false -> w_int 1 4096 None (g k) = Some (Z.of_N n)).
Proof.
  unfold arg, req. destruct (g k) as [o|]; [|discriminate]. destruct o as [| |z| | | |]; try discriminate. intros [= <-] H.
  specialize (H z eq_refl). unfold u32 in H. rewrite wrap_id by (change (2 ^ 32)%Z with 4294967296%Z; lia).
  eexists. split; [reflexivity|]. intros B. unfold w_int. replace (_ && _) with true by lia. f_equal. lia.
Qed.

Lemma args_cons g p r l : args_of g (p :: r) = Some l -> exists v l', arg g p = Some v /\ args_of g r = Some l' /\ l = v :: l'.
Proof. cbn [args_of]. destruct (arg g p); [|discriminate]. destruct (args_of g r); [|discriminate]. intros [= <-]. eauto. Qed.

Ltac take :=
  match goal with
  | E : arg ?g (req "lockspace" UBytes) = Some ?v, PN : forall k b, In k ["lockspace"; _] -> _ |- _ =>
      apply b_name in E; [|intros; eapply PN; [|eassumption]; cbn; tauto]; destruct E as (? & -> & ? & ? & ? & ?)
  | E : arg ?g (req "resource" UBytes) = Some ?v, PN : forall k b, In k ["lockspace"; _] -> _ |- _ =>
      apply b_name in E; [|intros; eapply PN; [|eassumption]; cbn; tauto]; destruct E as (? & -> & ? & ? & ? & ?)
  | E : arg ?g (req "data" UBytes) = Some ?v |- _ => apply b_bytes in E; destruct E as (? & -> & ? & ?)
  | E : arg ?g (req "path" UPath) = Some ?v |- _ =>
      apply b_path in E; [|assumption]; destruct E as (? & -> & ? & ? & ?)
  | E : arg ?g (req ?k UU64) = Some ?v, P64 : forall k z, In k ["host_id"; _; _; _; _; _] -> _ |- _ =>
      apply (b_num64 g k None) in E; [|intros; eapply P64; [|eassumption]; cbn; tauto]; destruct E as (? & -> & ?)
  | E : arg ?g (opt ?k UU64 (CN ?d)) = Some ?v, P64 : forall k z, In k ["host_id"; _; _; _; _; _] -> _ |- _ =>
      apply (b_num64 g k (Some d)) in E; [|intros; eapply P64; [|eassumption]; cbn; tauto]; destruct E as (? & -> & ?)
  | E : arg ?g (opt ?k UU32 (CN ?d)) = Some ?v, P32 : forall k z, In k ["iotimeout"; _; _] -> _ |- _ =>
      apply (b_num32 g k (Some d)) in E; [|intros; eapply P32; [|eassumption]; cbn; tauto]; destruct E as (? & -> & ?)
  | E : arg ?g (req "size" UU32) = Some ?v, P32 : forall k z, In k ["iotimeout"; _; _] -> _ |- _ =>
      apply b_size in E; [|intros; eapply P32; [|eassumption]; cbn; tauto]; destruct E as (? & -> & ?)
  | E : arg ?g (opt "action" UI32 _) = Some ?v |- _ => apply b_act in E; [|assumption]; destruct E as (? & -> & ? & ?)
  | E : arg ?g (opt ?k UI32 (CZ 512)) = Some ?v |- _ => apply b_sector in E; destruct E as (? & -> & ?)
  | E : arg ?g (opt ?k UI64 _) = Some ?v |- _ => apply b_align in E; destruct E as (? & -> & ?)
  | E : arg ?g (opt "disks" UList _) = Some ?v |- _ => fail
  | E : arg ?g (req ?k UList) = Some ?v |- _ => apply b_disks in E; [|assumption]; destruct E as (? & -> & ?)
  | E : arg ?g (opt ?k UObj _) = Some ?v, P64 : forall k z, In k ["host_id"; _; _; _; _; _] -> _ |- _ =>
      apply b_version in E; [|intros; eapply P64; [|eassumption]; cbn; tauto]; destruct E as (? & -> & ? & ?)
  | E : arg ?g (opt "wait" UI32 (CZ 1)) = Some ?v |- _ => apply (b_bool g "wait" true) in E; destruct E as (? & -> & ?)
  | E : arg ?g (opt ?k UI32 (CZ 0)) = Some ?v |- _ =>
      match k with
      | "max_hosts" => apply (b_int g k (Some 0%Z)) in E
      | "num_hosts" => apply (b_int g k (Some 0%Z)) in E
      | _ => apply (b_bool g k false) in E
      end; destruct E as (? & -> & ?)
  | E : arg ?g (opt ?k UI32 (CZ ?d)) = Some ?v |- _ => apply (b_int g k (Some d)) in E; destruct E as (? & -> & ?)
  | E : arg ?g (req ?k UI32) = Some ?v |- _ => apply (b_int g k None) in E; destruct E as (? & -> & ?)
  end.

Lemma none_case (o : pobj) : o = ONone \/ forall (A : Type) (x y : A), match o with ONone => x | _ => y end = y.
Proof. destruct o; auto. Qed.

(* the other way, for arguments in range *)
Theorem C89_only_partial : forall f pos kw c, plain (given (signature f) pos kw) ->
  run f pos kw = Some c -> wanted f (given (signature f) pos kw) = Some (reads c).
Proof.
  intros f pos kw c PL H. pose proof (run_form _ _ _ _ H) as WF. rewrite run_wf in H by exact WF. revert PL H.
  generalize (given (signature f) pos kw). clear. intros g (PN & PP & P64 & P32 & PA & PD & PB) H.
  destruct (args_of g (params f)) as [l|] eqn:A; [|discriminate].
  destruct f; cbn [params] in A;
    repeat match type of A with
    | args_of _ (_ :: _) = _ =>
        let A' := fresh "A" in pose proof (args_cons _ _ _ _ A) as A'; clear A; destruct A' as (? & ? & ? & A & ->)
    end; injection A as <-; repeat take; cbn [body] in H; cbn [wanted]; cbv zeta; unfold w_i32.
  all: try match type of H with (if ?b then None else _) = Some _ => let B := fresh "B" in destruct b eqn:B; [discriminate H|] end.
  all: try match type of H with match parse_disks ?d with _ => _ end = Some _ => let D := fresh "D" in destruct (parse_disks d) eqn:D; [|discriminate H] end.
  all: repeat match goal with W : forall ds, Some ?x = Some ds -> _ |- _ => specialize (W _ eq_refl) end.
  all: try match type of H with match size_flags ?a ?s with _ => _ end = Some _ =>
       let D := fresh "D" in destruct (size_flags a s) eqn:D; [|discriminate H]; apply size_split in D; destruct D as (? & ? & ? & ? & ->) end.
  all: repeat match goal with D : align_flag ?d = Some ?x, W : forall ds, align_flag ?d = Some ds -> _ |- _ => specialize (W _ D) end.
  all: repeat match goal with D : sector_flag ?d = Some ?x, W : forall ds, sector_flag ?d = Some ds -> _ |- _ => specialize (W _ D) end.
  all: repeat match goal with W : ?w (?g ?k) = Some _ |- context [?w (?g ?k)] => rewrite W end.
  all: try (injection H as <-; fin; rewrite ?N.add_0_r; reflexivity).
  all: try match goal with B : (_ && _) = false |- _ => rewrite B end.
  - injection H as <-.
    match goal with L : (_ <= 1023)%nat |- _ => idtac end. fin. cbn [map]. unfold dtext. cbn [fst snd]. fin. rewrite ?N.add_0_r. reflexivity.
  - injection H as <-. fin. repeat match goal with |- context [truth ?a] => destruct (truth a) end; reflexivity.
  - destruct (none_case x0) as [-> |N0].
    + match goal with W : ONone = ONone -> _ |- _ => rewrite (W eq_refl) end. injection H as <-. fin. rewrite N.add_0_r. reflexivity.
    + rewrite N0 in H. destruct (version_arg x0) as [w|] eqn:V; [|discriminate]. match goal with W : forall x, Some ?w = Some x -> _ |- _ => rewrite (W _ eq_refl) end. injection H as <-. fin.
      repeat match goal with |- context [truth ?a] => destruct (truth a) end; reflexivity.
  - injection H as <-. reflexivity.
  - destruct (none_case x0) as [-> |N0].
    + match goal with W : ONone = ONone -> _ |- _ => rewrite (W eq_refl) end. injection H as <-. fin. congruence.
    + rewrite N0 in H. destruct (version_arg x0) as [w|] eqn:V; [|discriminate]. match goal with W : forall x, Some ?w = Some x -> _ |- _ => rewrite (W _ eq_refl) end. injection H as <-. fin. congruence.
  - assert (Q : (Z.of_nat (List.length x1) < 2147483648)%Z) by (apply PB; assumption). injection H as <-.
    rewrite as_int_id by lia. replace (Z.of_nat (List.length x1) <? 2147483648)%Z with true by lia. fin. reflexivity.
  - match goal with W : false = false -> _ |- _ => rewrite (W eq_refl) end.
    injection H as <-. fin. rewrite N2Z.id. reflexivity.
Qed.
Print Assumptions C89_only_partial.

(* whatever the arguments are, the fields have their size and a path its end *)
Lemma copy_len n m b : (n <= m)%nat -> List.length (strncpy n m b) = m.
Proof. intros H. unfold strncpy. rewrite app_length, repeat_length. pose proof (firstn_le_length n (upto_nul b)). lia. Qed.
#[local] Transparent name_buf path_buf.
Lemma name_len b : List.length (name_buf b) = 48%nat.
Proof. apply copy_len. apply le_n. Qed.
Lemma path_len b : List.length (path_buf b) = 1024%nat /\ In 0 (path_buf b).
Proof.
  unfold path_buf. split; [apply copy_len; unfold SANLK_PATH_LEN; lia|]. unfold strncpy. apply in_or_app. right.
  pose proof (firstn_le_length (SANLK_PATH_LEN - 1) (upto_nul b)).
  destruct (SANLK_PATH_LEN - List.length (firstn (SANLK_PATH_LEN - 1) (upto_nul b)))%nat eqn:E; [unfold SANLK_PATH_LEN in *; lia|left; reflexivity].
Qed.
#[local] Opaque name_buf path_buf.
#[local] Transparent parse_disks.
Lemma disks_len l ds : parse_disks l = Some ds -> Forall (fun d => List.length (fst d) = 1024%nat /\ In 0 (fst d)) ds.
Proof.
  revert ds. induction l as [|o r IH]; intros ds H; [injection H as <-; constructor|]. cbn [parse_disks] in H.
  destruct (parse_single_disk o) as [d|] eqn:D; [|discriminate]. destruct (parse_disks r) as [e|]; [|discriminate]. injection H as <-.
  constructor; auto. unfold parse_single_disk in D.
  destruct o as [| | | | |t|]; try discriminate. destruct t as [|p [|q [|]]]; try discriminate.
  destruct (conv UPath p) as [[]|]; try discriminate. destruct (conv UU64 q) as [[]|]; try discriminate.
  destruct (Nat.ltb _ _); [discriminate|]. injection D as <-. apply path_len.
Qed.
#[local] Opaque parse_disks.
Theorem C89_fields : forall f pos kw c, run f pos kw = Some c -> bufs c.
Proof.
  intros f pos kw c H. unfold run in H. destruct (_ && _); [discriminate|].
  destruct (parse (params f) pos kw) as [l|]; [|discriminate].
  pose proof path_len as PLn. pose proof name_len as NLn. pose proof disks_len as DL.
  destruct f; cbn [body] in H;
    repeat match type of H with match ?x with _ => _ end = Some _ => let E := fresh "E" in destruct x eqn:E; try discriminate H end;
    injection H as <-; cbn [bufs]; unfold ls_bufs, res_bufs, mk_res; cbn [l_name l_path r_ls r_name r_disks]; repeat split; auto;
    try apply PLn; try (eapply DL; eassumption).
  all: constructor; [apply PLn|constructor].
Qed.
Print Assumptions C89_fields.

(* different short names without null bytes stay different *)
Theorem C89_names_apart : forall a b, ~ In 0 a -> ~ In 0 b -> (List.length a <= 48)%nat -> (List.length b <= 48)%nat ->
  name_buf a = name_buf b -> a = b.
Proof.
  intros a b NA NB LA LB E. apply nonzero_in in NA, NB. apply Nat.leb_le in LA, LB.
  rewrite <- (name_text a), <- (name_text b) by (rewrite ?NA, ?NB, ?LA, ?LB; reflexivity). rewrite E. reflexivity.
Qed.
Print Assumptions C89_names_apart.

(* ---- the full statement fails ---- *)
#[local] Transparent name_buf path_buf as_int wrap text version_arg parse_disks.
Definition base : list pobj := [OBytes [65]; OInt 1; OBytes [47; 100]].
(* a name of 49 bytes *)
Theorem C89_long_name_refuted : ~ C89_statement.
Proof.
  intros H. specialize (H FAddLockspace [OBytes (repeat 65 49); OInt 1; OBytes [47; 100]] [] _ eq_refl). discriminate H.
Qed.
Print Assumptions C89_long_name_refuted.
(* two lockspaces for Python, one for the library: cut, or ended by a null byte *)
Theorem C89_same_lockspace_refuted :
  (forall n, name_buf (repeat 65 (48 + n)) = name_buf (repeat 65 48)) /\
  (forall a b, ~ In 0 a -> name_buf (a ++ 0 :: b) = name_buf a) /\
  run FAddLockspace [OBytes ([65] ++ [0; 66]); OInt 1; OBytes [47; 100]] [] = run FAddLockspace base [].
Proof.
  split; [|split; [|reflexivity]].
  - intros n. unfold name_buf, strncpy. assert (U : forall m, upto_nul (repeat 65 m) = repeat 65 m) by (induction m; cbn; congruence).
    rewrite !U. assert (F : firstn SANLK_NAME_LEN (repeat 65 (48 + n)) = firstn SANLK_NAME_LEN (repeat 65 48)) by reflexivity. rewrite F. reflexivity.
  - intros a b NA. unfold name_buf, strncpy. replace (upto_nul (a ++ 0 :: b)) with (upto_nul a); [reflexivity|].
    induction a as [|c r IH]; [reflexivity|]. cbn. destruct (c =? 0); [reflexivity|]. f_equal. apply IH. intros I. apply NA. right. exact I.
Qed.
Print Assumptions C89_same_lockspace_refuted.
(* a number that does not fit becomes another number: every host id is that of its remainder *)
Theorem C89_number_refuted : forall z,
  run FAddLockspace [OBytes [65]; OInt (z + 2 ^ 64); OBytes [47; 100]] [] =
  run FAddLockspace [OBytes [65]; OInt z; OBytes [47; 100]] [].
Proof.
  intros z. assert (W : wrap 64 (z + 2 ^ 64) = wrap 64 z).
  { unfold wrap. f_equal. rewrite <- (Z.mod_add z 1 (2 ^ 64)) by discriminate. rewrite Z.mul_1_l. reflexivity. }
  unfold run, parse. cbn [positional andb params kw_known forallb bind kw_get conv has_nul existsb req opt]. rewrite W. reflexivity.
Qed.
Print Assumptions C89_number_refuted.
(* a path of 1024 bytes is cut, except for disks *)
Theorem C89_path_refuted :
  run FAddLockspace [OBytes [65]; OInt 1; OBytes (repeat 47 1024)] [] = run FAddLockspace [OBytes [65]; OInt 1; OBytes (repeat 47 1023)] [] /\
  run FReadLockspace [OBytes (repeat 47 1024)] [] = run FReadLockspace [OBytes (repeat 47 1023)] [] /\
  run FReadResource [OBytes (repeat 47 1024)] [] = None.
Proof. vm_compute. repeat split. Qed.
Print Assumptions C89_path_refuted.

(* by position, by name, and the rest by default *)
Example C89_nonvacuous :
  let disks := OList [OTuple [OStr [47; 100]; OInt 1048576]; OTuple [OBytes [47; 101]; OInt 0]] in
  well_formed FAcquire [OBytes [76]; OBytes [82; 49]] [("disks", disks); ("version", OInt 7); ("pid", OInt 321); ("shared", OInt 1)] /\
  run FAcquire [OBytes [76]; OBytes [82; 49]] [("disks", disks); ("version", OInt 7); ("pid", OInt 321); ("shared", OInt 1)] =
    Some (LAcquire (-1) 321 0 (Pres (name_buf [76]) (name_buf [82; 49]) 7 5 [(path_buf [47; 100], 1048576); (path_buf [47; 101], 0)])) /\
  run FRemLockspace [OBytes [76]; OInt 3; OStr [47; 100]] [("unused", OInt 1); ("wait", OInt 0)] =
    Some (LRemLockspace (Pls (name_buf [76]) 3 0 (path_buf [47; 100]) 0) 3) /\
  run FRemLockspace [OBytes [76]; OInt 3; OStr [47; 100]] [("path", OStr [47])] = None /\
  run FAcquire [OBytes [76]; OBytes [82; 49]; disks] [] = None.
Proof.
  cbv zeta. split.
  - split; [cbn; lia|]. split; [|exact I]. intros k o H. cbn [signature In firstn List.length] in *.
    decompose [or] H; try contradiction; match goal with E : (_, _) = (_, _) |- _ => injection E as <- _ end; (split; [tauto|intuition discriminate]).
  - vm_compute. repeat split.
Qed.
