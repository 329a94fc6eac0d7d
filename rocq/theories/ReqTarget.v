(* The process a request is directed at: r->pid, the restrict flags and the kill path
   of a resource, along the life of the resource.
   src/resource.c:1276-1324 get_resource, 1683-1795 acquire_token (joining, adopting,
   creating), 1440-1446 and 1531-1536 (the end of a conversion), 2121-2182 do_request,
   2535-2556 resource_thread; src/cmd.c:264-265, 406-414 (what a token gets from its
   client); src/main.c:1605-1656 setup_helper; kill(2) as called in src/helper.c:213.

   The lists, tokens and modes are those of Resources.v; the record and the choice of
   the signal those of Request.v.  This file adds the members which say whom to signal.
   Simplified: path and arguments of a kill path are one number, 0 for none; the client's
   values are those it had when it acquired. *)
From Coq Require Import List NArith ZArith Lia Bool Arith.
From Verif Require Import Bytes Codec Leader LeaderReadNum Acquire Request Resources.
Import ListNotations.
Open Scope N_scope.

(* a registered process: cl->pid, cl->restricted, cl->killpath *)
Record proc := mkProc { p_pid : Z; p_rk : bool; p_rt : bool; p_path : N }.

(* members of struct resource: pid, R_RESTRICT_SIGKILL, R_RESTRICT_SIGTERM, killpath *)
Record rext := mkRext { x_pid : Z; x_rk : bool; x_rt : bool; x_path : N }.

Record xst := mkXst {
  x_s : rst;
  x_r : N -> rext;        (* by r_id *)
  x_t : N -> proc }.      (* by token: the process the token is for *)

Definition set_x {A} (m : N -> A) (i : N) (v : A) : N -> A := fun j => if j =? i then v else m j.

(* get_resource 1300-1322 with acquire_token 1792-1793: a shared resource gets no pid
   and no restrictions *)
Definition new_ext (sh : bool) (p : proc) : rext :=
  if sh then mkRext 0 false false (p_path p)
  else mkRext (p_pid p) (p_rk p) (p_rt p) (p_path p).

(* 1757 (adopting an exclusive orphan); 1733-1740 (a shared one) sets nothing *)
Definition adopt_ext (sh : bool) (p : proc) (x : rext) : rext :=
  if sh then x else mkRext (p_pid p) (x_rk x) (x_rt x) (x_path x).

(* a step of the lists; [p] is the acquiring process.  Joining (1678-1688), both
   conversions, release and death set none of the members. *)
Definition xstep (x : xst) (o : rop) (p : proc) : option xst :=
  match rstep (x_s x) o with
  | None => None
  | Some s' =>
    Some (match o with
          | OAcquire i k sh per flags =>
            match decide (s_res (x_s x)) k sh flags with
            | DFail _ => mkXst s' (x_r x) (x_t x)
            | DJoin r => mkXst s' (x_r x) (set_x (x_t x) i p)
            | DAdopt r => mkXst s' (set_x (x_r x) (r_id r) (adopt_ext (r_sh r) p (x_r x (r_id r)))) (set_x (x_t x) i p)
            | DCreate => mkXst s' (set_x (x_r x) (s_next (x_s x)) (new_ext sh p)) (set_x (x_t x) i p)
            end
          | _ => mkXst s' (x_r x) (x_t x)
          end)
  end.

Definition xinit : xst := mkXst rinit (fun _ => mkRext 0 false false 0) (fun _ => mkProc 0 false false 0).

Inductive xreach (P : xst -> rop -> proc -> Prop) : xst -> Prop :=
| xr_init : xreach P xinit
| xr_step x o p x' : xreach P x -> P x o p -> xstep x o p = Some x' -> xreach P x'.

Fixpoint xrun (x : xst) (l : list (rop * proc)) : option xst :=
  match l with
  | [] => Some x
  | (o, p) :: r => match xstep x o p with Some x' => xrun x' r | None => None end
  end.

(* ---------------- the resource thread ---------------- *)
(* the resource as do_request sees it *)
Definition held_of (x : xst) (lver : N) (r : res) : held :=
  let e := x_r x (r_id r) in
  mkHeld (x_pid e) lver (negb (x_rk e)) (negb (x_rt e)) (negb (x_path e =? 0)).

(* 2535-2556: the thread found resource [k] in state [x1], where it was held at version
   [lver]; it read the request [rd] and acts in the later state [x2].  The action and
   the kill path of the message. *)
Definition x_examine (k lver : N) (rd : Z * request) (x1 x2 : xst) : option (kill_action * N) :=
  match find_resource k LHeld (s_res (x_s x1)) with
  | None => None
  | Some r1 =>
    match find_resource k LHeld (s_res (x_s x2)) with
    | None => None
    | Some r2 =>
      match examine (held_of x1 lver r1) rd (Some (held_of x2 lver r2)) with
      | None => None
      | Some a => Some (a, x_path (x_r x2 (r_id r2)))
      end
    end
  end.

(* ---------------- kill(2) by the helper ---------------- *)
(* The processes that get the signal: [procs] exist, [group] is their process group,
   [self] is the caller. *)
Definition signalled (procs : list Z) (group : Z -> Z) (self pid : Z) : list Z :=
  if (0 <? pid)%Z then filter (fun q => q =? pid)%Z procs
  else if (pid =? 0)%Z then filter (fun q => group q =? group self)%Z procs
  else if (pid =? -1)%Z then procs
  else filter (fun q => group q =? - pid)%Z procs.

(* setup_helper forks; neither it nor run_helper calls setpgid or setsid *)
Definition forked (procs : list Z) (group : Z -> Z) (daemon helper : Z) : Prop :=
  In daemon procs /\ In helper procs /\ group helper = group daemon.

(* ---------------- lemmas ---------------- *)
Lemma set_x_same {A} (m : N -> A) i v : set_x m i v i = v.
Proof. unfold set_x. rewrite N.eqb_refl. reflexivity. Qed.
Lemma set_x_other {A} (m : N -> A) i v j : j <> i -> set_x m i v j = m j.
Proof. intros H. unfold set_x. apply N.eqb_neq in H. rewrite H. reflexivity. Qed.

(* No conversion to exclusive succeeds. *)
Definition noupgrade (s : rst) (o : rop) : Prop :=
  match o with
  | OConvEnd i true => forall t, s_tok s i = Some t -> t_conv t <> Some true
  | _ => True
  end.
Lemma noupgrade_alone s o : noupgrade s o -> alone s o.
Proof. destruct o; cbn; auto. destruct ok; auto. intros H t r A B. exfalso. exact (H t A B). Qed.

(* no orphan is adopted *)
Definition noadopt (s : rst) (o : rop) : Prop :=
  match o with
  | OAcquire i k sh per flags => forall r, decide (s_res s) k sh flags <> DAdopt r
  | _ => True
  end.

(* resource [r'] of the next state was [r] before: same structure; its mode changed only
   at the end of a conversion; a new token is that of an acquire that joined or adopted *)
Definition comes_from (s : rst) (o : rop) (r r' : res) : Prop :=
  In r (s_res s) /\ r_id r = r_id r' /\ r_key r = r_key r' /\
  (r_sh r' = r_sh r \/
   exists i t toex, o = OConvEnd i true /\ s_tok s i = Some t /\ t_conv t = Some toex /\ r_sh r' = negb toex) /\
  forall j, In j (r_toks r') -> In j (r_toks r) \/
    exists k sh per fl r0, o = OAcquire j k sh per fl /\ s_tok s j = None /\ r_id r0 = r_id r /\
      (decide (s_res s) k sh fl = DJoin r0 \/ decide (s_res s) k sh fl = DAdopt r0).
Definition created (s : rst) (o : rop) (r' : res) : Prop :=
  exists i k sh per fl, o = OAcquire i k sh per fl /\ s_tok s i = None /\ decide (s_res s) k sh fl = DCreate /\
    r' = mkRes (s_next s) k LAdd sh false false [i].

Lemma from_same s o r : In r (s_res s) -> comes_from s o r r.
Proof.
  intros X. split; [exact X|]. split; [reflexivity|]. split; [reflexivity|]. split; [left; reflexivity|].
  intros j J. left. exact J.
Qed.
Lemma from_upd s o id f r' :
  In r' (upd_res id f (s_res s)) ->
  (forall r, r_id (f r) = r_id r) -> (forall r, r_key (f r) = r_key r) ->
  (forall r, r_sh (f r) = r_sh r) ->
  (forall r j, In r (s_res s) -> r_id r = id -> In j (r_toks (f r)) -> In j (r_toks r)) ->
  exists r, comes_from s o r r'.
Proof.
  intros X A B C D. apply upd_res_In in X as [(r & R1 & R2 & ->)|[X _]]; [|exists r'; apply from_same; exact X].
  exists r. unfold comes_from. rewrite A, B, C. split; [exact R1|]. split; [reflexivity|]. split; [reflexivity|]. split; [left; reflexivity|].
  intros j J. left. exact (D r j R1 R2 J).
Qed.

Lemma rstep_from s o s' r' :
  NoDup (map r_id (s_res s)) -> rstep s o = Some s' -> In r' (s_res s') ->
  (exists r, comes_from s o r r') \/ created s o r'.
Proof.
  intros ND H Hr.
  assert (RT : forall i (r : res) j,
     In j (r_toks (match rem_tok i (r_toks r) with [] => set_list LRem (set_toks (rem_tok i (r_toks r)) r) | _ => set_toks (rem_tok i (r_toks r)) r end)) -> In j (r_toks r)).
  { intros i r j J.
    assert (In j (rem_tok i (r_toks r))) as K.
    { destruct (rem_tok i (r_toks r)); exact J. }
    apply rem_tok_In in K as [K _]. exact K. }
  destruct o as [i k sh per fl|i|i|i|id retry|id|i|i|id|id|i toex|i ok]; cbn in H.
  - destruct (s_tok s i) eqn:E; [discriminate H|].
    assert (Jn : forall r (g : res -> res), In r' (upd_res (r_id r) g (s_res s)) ->
      (forall q, r_id (g q) = r_id q /\ r_key (g q) = r_key q /\ r_sh (g q) = r_sh q /\ r_toks (g q) = i :: r_toks q) ->
      decide (s_res s) k sh fl = DJoin r \/ decide (s_res s) k sh fl = DAdopt r ->
      exists r0, comes_from s (OAcquire i k sh per fl) r0 r').
    { intros r g X G D. apply upd_res_In in X as [(r0 & R1 & R2 & ->)|[X _]]; [|exists r'; apply from_same; exact X].
      destruct (G r0) as (G1 & G2 & G3 & G4).
      exists r0. unfold comes_from. rewrite G1, G2, G3, G4. split; [exact R1|]. split; [reflexivity|]. split; [reflexivity|]. split; [left; reflexivity|].
      intros j [<-|J]; [|left; exact J]. right. exists k, sh, per, fl, r. split; [reflexivity|]. split; [exact E|].
      split; [symmetry; exact R2|exact D]. }
    destruct (decide (s_res s) k sh fl) as [e|r|r|] eqn:D; injection H as <-; cbn in Hr.
    + left. exists r'. apply from_same. exact Hr.
    + left. refine (Jn r _ Hr _ _); [intros q; cbn; auto|left; reflexivity].
    + left. refine (Jn r _ Hr _ _); [intros q; cbn; auto|right; reflexivity].
    + destruct Hr as [<-|Hr]; [|left; exists r'; apply from_same; exact Hr].
      right. exists i, k, sh, per, fl. auto.
  - destruct (s_tok s i); [|discriminate H]. destruct (t_ok t); [discriminate H|]. injection H as <-. cbn in Hr.
    left. eapply from_upd; [exact Hr|..]; cbn; auto.
  - destruct (s_tok s i); [|discriminate H]. destruct (t_ok t); [discriminate H|]. injection H as <-. cbn in Hr.
    left. eapply from_upd; [exact Hr|..]; intros r; cbv zeta beta; try (destruct (rem_tok i (r_toks r)); reflexivity).
    intros j _ _. apply RT.
  - destruct (s_tok s i); [|discriminate H]. destruct (t_ok t); [|discriminate H]. destruct (t_conv t); [discriminate H|].
    injection H as <-. cbn in Hr.
    left. eapply from_upd; [exact Hr|..]; intros r; cbv zeta beta; try (destruct (rem_tok i (r_toks r)); reflexivity).
    intros j _ _. apply RT.
  - destruct (get_res id (s_res s)) as [r0|]; [|discriminate H].
    destruct (r_list r0); try discriminate H. destruct (r_thread r0); [discriminate H|].
    destruct retry; injection H as <-; cbn in Hr; left.
    + eapply from_upd; [exact Hr|..]; cbn; auto.
    + apply del_res_In in Hr as [Hr _]. exists r'. apply from_same. exact Hr.
  - destruct (get_res id (s_res s)) as [r0|]; [|discriminate H].
    destruct (r_list r0); try discriminate H. destruct (r_thread r0); [|discriminate H].
    injection H as <-; cbn in Hr; left. apply del_res_In in Hr as [Hr _]. exists r'. apply from_same. exact Hr.
  - destruct (s_tok s i) as [t|]; [|discriminate H]. destruct (t_ok t); [|discriminate H]. destruct (t_conv t); [discriminate H|].
    destruct (get_res (t_rid t) (s_res s)) as [r0|] eqn:G; [|discriminate H].
    apply get_res_In in G as [G1 G2].
    assert (U : forall r j, In r (s_res s) -> r_id r = t_rid t -> In j (rem_tok i (r_toks r0)) -> In j (r_toks r)).
    { intros r j A B J. assert (r = r0) as -> by (apply (NoDup_map_inj _ _ _ _ ND A G1); congruence).
      apply rem_tok_In in J as [J _]. exact J. }
    injection H as <-. cbn [s_res] in Hr. left.
    destruct (rem_tok i (r_toks r0)) as [|a l] eqn:T.
    + destruct (t_dead t || negb (r_lver r0)).
      * apply del_res_In in Hr as [Hr _]. exists r'. apply from_same. exact Hr.
      * destruct (t_per t); (eapply from_upd; [exact Hr|..]); cbn; auto; intros r j _ _ [].
    + eapply from_upd; [exact Hr|..]; cbn [set_toks r_id r_key r_sh r_toks]; auto.
  - destruct (s_tok s i); [|discriminate H]. injection H as <-. cbn in Hr. left. exists r'. apply from_same. exact Hr.
  - destruct (get_res id (s_res s)) as [r0|]; [|discriminate H].
    destruct (r_list r0); try discriminate H. injection H as <-. cbn in Hr. left.
    eapply from_upd; [exact Hr|..]; cbn; auto.
  - destruct (get_res id (s_res s)) as [r0|]; [|discriminate H].
    destruct (r_list r0); try discriminate H. injection H as <-. cbn in Hr. left.
    apply del_res_In in Hr as [Hr _]. exists r'. apply from_same. exact Hr.
  - destruct (s_tok s i) as [t|]; [|discriminate H]. destruct (t_ok t); [|discriminate H]. destruct (t_conv t); [discriminate H|].
    assert (s_res s' = s_res s) as X.
    { destruct (find_resource (t_key t) LHeld (s_res s)) as [r0|]; [|injection H as <-; reflexivity].
      match type of H with (if ?b then _ else _) = _ => destruct b end; injection H as <-; reflexivity. }
    rewrite X in Hr. left. exists r'. apply from_same. exact Hr.
  - destruct (s_tok s i) as [t|] eqn:E; [|discriminate H]. destruct (t_conv t) as [toex|] eqn:C; [|discriminate H].
    injection H as <-. cbn [s_res] in Hr. left. destruct ok.
    + apply upd_res_In in Hr as [(r0 & R1 & R2 & ->)|[X _]]; [|exists r'; apply from_same; exact X].
      exists r0. unfold comes_from. cbn. split; [exact R1|]. split; [reflexivity|]. split; [reflexivity|].
      split; [right; exists i, t, toex; auto|]. intros j J. left. exact J.
    + exists r'. apply from_same. exact Hr.
Qed.

(* ---------------- invariant ---------------- *)
(* the resource names the process of token [i]; with [b], also its restrictions and path *)
Definition names (b : bool) (e : rext) (p : proc) : Prop :=
  x_pid e = p_pid p /\ (b = true -> x_rk e = p_rk p /\ x_rt e = p_rt p /\ x_path e = p_path p).

Record xinv (b : bool) (x : xst) : Prop := mkXinv {
  XI_r : rinv (x_s x);
  XI_names : forall r i, In r (s_res (x_s x)) -> r_sh r = false -> In i (r_toks r) ->
    names b (x_r x (r_id r)) (x_t x i) }.

(* steps without an upgrade; with [b], also without adopting *)
Definition plain (b : bool) (x : xst) (o : rop) (p : proc) : Prop :=
  noupgrade (x_s x) o /\ (b = true -> noadopt (x_s x) o).

Lemma xstep_lists x o p x' : xstep x o p = Some x' -> rstep (x_s x) o = Some (x_s x').
Proof.
  unfold xstep. destruct (rstep (x_s x) o) as [s'|]; [|discriminate]. intros H. injection H as <-. f_equal.
  destruct o; try reflexivity. destruct (decide (s_res (x_s x)) k sh flags); reflexivity.
Qed.

Lemma xinv_step b x o p x' : xinv b x -> plain b x o p -> xstep x o p = Some x' -> xinv b x'.
Proof.
  intros [IR IN] [PU PA] H. pose proof (xstep_lists _ _ _ _ H) as RS.
  split; [exact (rinv_step _ _ _ IR (noupgrade_alone _ _ PU) RS)|].
  intros r' i Hr' Sh Hi.
  destruct (rstep_from _ _ _ _ (RI_ids _ IR) RS Hr') as [(r & R1 & R2 & R3 & R4 & R5)|(i0 & k & sh & per & fl & -> & T & D & ->)].
  - assert (ShR : r_sh r = false).
    { destruct R4 as [R4|(c & t & toex & -> & C1 & C2 & C3)]; [congruence|].
      rewrite Sh in C3. destruct toex; [|discriminate C3]. exfalso. exact (PU t C1 C2). }
    assert (Old : In i (r_toks r) -> s_tok (x_s x) i <> None).
    { intros K. destruct (RI_res _ IR r R1) as (_ & Q & _). destruct (Q i K) as (t & Q1 & _). congruence. }
    unfold xstep in H. rewrite RS in H.
    destruct (R5 i Hi) as [K|(k & sh & per & fl & r0 & -> & T & E0 & D)].
    + pose proof (IN r i R1 ShR K) as NM. rewrite <- R2. specialize (Old K).
      destruct o as [i0 k sh per fl| | | | | | | | | | | ]; try (injection H as <-; exact NM).
      assert (T0 : s_tok (x_s x) i0 = None).
      { cbn in RS. destruct (s_tok (x_s x) i0); [discriminate RS|reflexivity]. }
      assert (Ne : i <> i0) by congruence.
      destruct (decide (s_res (x_s x)) k sh fl) as [e|ra|ra|] eqn:D; injection H as <-; cbn [x_r x_t].
      * exact NM.
      * rewrite (set_x_other _ _ _ _ Ne). exact NM.
      * rewrite (set_x_other _ _ _ _ Ne).
        destruct (N.eq_dec (r_id r) (r_id ra)) as [Eq|Nq]; [|rewrite (set_x_other _ _ _ _ Nq); exact NM].
        exfalso. destruct (decide_adopt _ _ _ _ _ D) as (A1 & A2 & A3 & _).
        assert (r = ra) by (apply (NoDup_map_inj _ _ _ _ (RI_ids _ IR) R1 A1 Eq)). subst ra.
        destruct (RI_res _ IR r R1) as (_ & _ & Q). rewrite A3 in Q. rewrite Q in K. destruct K.
      * rewrite (set_x_other _ _ _ _ Ne). rewrite set_x_other; [exact NM|].
        pose proof (RI_next _ IR r R1). lia.
    + destruct D as [D|D]; rewrite D in H; injection H as <-; cbn [x_r x_t]; rewrite set_x_same.
      * destruct (decide_join _ _ _ _ _ D) as (A1 & A2 & A3 & A4 & A5).
        assert (r = r0) by (apply (NoDup_map_inj _ _ _ _ (RI_ids _ IR) R1 A1); congruence). subst r0. congruence.
      * destruct (decide_adopt _ _ _ _ _ D) as (A1 & _).
        assert (r = r0) by (apply (NoDup_map_inj _ _ _ _ (RI_ids _ IR) R1 A1); congruence). subst r0.
        rewrite <- R2, set_x_same, ShR. cbn. split; [reflexivity|]. intros B.
        exfalso. exact (PA B r D).
  - cbn [r_sh r_toks r_id] in *. subst sh. destruct Hi as [<-|[]].
    unfold xstep in H. rewrite RS, D in H. injection H as <-. cbn [x_r x_t]. rewrite !set_x_same.
    cbn. split; [reflexivity|auto].
Qed.

Lemma xreach_inv b x : xreach (plain b) x -> xinv b x.
Proof.
  induction 1 as [|x o p x' R IH P E].
  - split; [exact rinv_init|]. intros r i [].
  - exact (xinv_step _ _ _ _ _ IH P E).
Qed.

(* the members of a resource change only when the structure is made or an exclusive
   orphan adopted *)
Definition touches (x : xst) (o : rop) (id : N) : Prop :=
  match o with
  | OAcquire i k sh per fl =>
    match decide (s_res (x_s x)) k sh fl with
    | DAdopt r => r_id r = id /\ r_sh r = false
    | DCreate => s_next (x_s x) = id
    | _ => False
    end
  | _ => False
  end.
Lemma xstep_ext x o p x' id : xstep x o p = Some x' -> ~ touches x o id -> x_r x' id = x_r x id.
Proof.
  unfold xstep. destruct (rstep (x_s x) o) as [s'|]; [|discriminate]. intros H NT. injection H as <-.
  destruct o as [i k sh per fl| | | | | | | | | | | ]; try reflexivity.
  cbn in NT. destruct (decide (s_res (x_s x)) k sh fl) as [e|r|r|]; try reflexivity; cbn [x_r].
  - destruct (N.eq_dec id (r_id r)) as [->|Ne]; [|apply set_x_other; exact Ne].
    rewrite set_x_same. unfold adopt_ext. destruct (r_sh r); [reflexivity|]. exfalso. apply NT. auto.
  - apply set_x_other. intros ->. apply NT. reflexivity.
Qed.

(* tokens appear only by an acquire that got through; identities grow *)
Lemma rstep_tok s o s' i :
  rstep s o = Some s' -> s_tok s' i <> None ->
  s_tok s i <> None \/ exists k sh per fl, o = OAcquire i k sh per fl /\ forall e, decide (s_res s) k sh fl <> DFail e.
Proof.
  intros H T.
  assert (St : forall j v (m : N -> option tok), set_tok m j v i <> None -> m j <> None -> m i <> None).
  { intros j v m X Y. destruct (N.eq_dec i j) as [->|Ne]; [exact Y|]. rewrite (set_tok_other _ _ _ _ Ne) in X. exact X. }
  destruct o as [j k sh per fl|j|j|j|id retry|id|j|j|id|id|j toex|j ok]; cbn in H.
  - destruct (s_tok s j) eqn:E; [discriminate H|].
    destruct (N.eq_dec i j) as [->|Ne].
    + destruct (decide (s_res s) k sh fl) as [e|r|r|] eqn:D.
      * injection H as <-. left. exact T.
      * right. exists k, sh, per, fl. split; [reflexivity|]. intros e. rewrite D. discriminate.
      * right. exists k, sh, per, fl. split; [reflexivity|]. intros e. rewrite D. discriminate.
      * right. exists k, sh, per, fl. split; [reflexivity|]. intros e. rewrite D. discriminate.
    + left. destruct (decide (s_res s) k sh fl); injection H as <-; cbn [s_tok] in T;
        try rewrite (set_tok_other _ _ _ _ Ne) in T; exact T.
  - destruct (s_tok s j) as [t|] eqn:E; [|discriminate H]. destruct (t_ok t); [discriminate H|]. injection H as <-. left.
    cbn [s_tok] in T. eapply St; [exact T|congruence].
  - destruct (s_tok s j) as [t|] eqn:E; [|discriminate H]. destruct (t_ok t); [discriminate H|]. injection H as <-. left.
    cbn [s_tok] in T. eapply St; [exact T|congruence].
  - destruct (s_tok s j) as [t|] eqn:E; [|discriminate H]. destruct (t_ok t); [|discriminate H]. destruct (t_conv t); [discriminate H|].
    injection H as <-. left. cbn [s_tok] in T. eapply St; [exact T|congruence].
  - destruct (get_res id (s_res s)) as [r0|]; [|discriminate H].
    destruct (r_list r0); try discriminate H. destruct (r_thread r0); [discriminate H|].
    destruct retry; injection H as <-; left; exact T.
  - destruct (get_res id (s_res s)) as [r0|]; [|discriminate H].
    destruct (r_list r0); try discriminate H. destruct (r_thread r0); [|discriminate H]. injection H as <-; left; exact T.
  - destruct (s_tok s j) as [t|] eqn:E; [|discriminate H]. destruct (t_ok t); [|discriminate H]. destruct (t_conv t); [discriminate H|].
    destruct (get_res (t_rid t) (s_res s)) as [r0|]; [|discriminate H]. injection H as <-. left.
    cbn [s_tok] in T. eapply St; [exact T|congruence].
  - destruct (s_tok s j) as [t|] eqn:E; [|discriminate H]. injection H as <-. left. cbn [s_tok] in T. eapply St; [exact T|congruence].
  - destruct (get_res id (s_res s)) as [r0|]; [|discriminate H]. destruct (r_list r0); try discriminate H. injection H as <-; left; exact T.
  - destruct (get_res id (s_res s)) as [r0|]; [|discriminate H]. destruct (r_list r0); try discriminate H. injection H as <-; left; exact T.
  - destruct (s_tok s j) as [t|] eqn:E; [|discriminate H]. destruct (t_ok t); [|discriminate H]. destruct (t_conv t); [discriminate H|].
    left. destruct (find_resource (t_key t) LHeld (s_res s)); [|injection H as <-; exact T].
    match type of H with (if ?b then _ else _) = _ => destruct b end; injection H as <-; [|exact T].
    cbn [s_tok] in T. eapply St; [exact T|congruence].
  - destruct (s_tok s j) as [t|] eqn:E; [|discriminate H]. destruct (t_conv t); [|discriminate H]. injection H as <-. left.
    cbn [s_tok] in T. eapply St; [exact T|congruence].
Qed.

Lemma rstep_next s o s' : rstep s o = Some s' -> s_next s <= s_next s'.
Proof.
  intros H. destruct o; cbn in H;
    repeat match type of H with
    | match ?b with _ => _ end = _ => destruct b; try discriminate H
    | (if ?b then _ else _) = _ => destruct b; try discriminate H
    end; injection H as <-; cbn [s_next]; lia.
Qed.

Lemma xreach_pids (P : xst -> rop -> proc -> Prop) x :
  (forall x o p, P x o p -> (0 < p_pid p)%Z) -> xreach P x ->
  forall i, s_tok (x_s x) i <> None -> (0 < p_pid (x_t x i))%Z.
Proof.
  intros HP. induction 1 as [|x o p x' R IH PP E]; intros i T; [exfalso; apply T; reflexivity|].
  pose proof (xstep_lists _ _ _ _ E) as RS. pose proof (HP _ _ _ PP) as Pos.
  unfold xstep in E. rewrite RS in E.
  destruct (rstep_tok _ _ _ _ RS T) as [T0|(k & sh & per & fl & -> & ND)].
  - specialize (IH i T0).
    assert (G : forall j, (0 < p_pid (set_x (x_t x) j p i))%Z).
    { intros j. unfold set_x. destruct (i =? j); [exact Pos|exact IH]. }
    destruct o as [j k sh per fl| | | | | | | | | | | ]; try (injection E as <-; exact IH).
    destruct (decide (s_res (x_s x)) k sh fl); injection E as <-; cbn [x_t]; try apply G. exact IH.
  - destruct (decide (s_res (x_s x)) k sh fl) as [e| | |]; [exfalso; exact (ND e eq_refl)| | |];
      injection E as <-; cbn [x_t]; rewrite set_x_same; exact Pos.
Qed.
