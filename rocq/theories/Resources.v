(* The resource lists of the daemon: resources_add, resources_held, resources_rem,
   resources_orphan and the tokens of each resource, src/resource.c.

   One step is what one thread does between taking and leaving resource_mutex;
   steps of different threads interleave freely.  Disk operations happen between the
   steps; their results are inputs.

   Simplifications.
   - The pair (lockspace name, resource name) that find_resource compares is a key.
   - A token is removed from the model when its client frees it.
   - r->leader.lver is reduced to whether it is nonzero.
   - Flags of r that only choose what is written to disk on release (R_ERASE_ALL,
     R_UNDO_SHARED, R_LVB_WRITE_RELEASE) are left out. *)
From Coq Require Import List NArith Lia Bool Arith.
Import ListNotations.
Open Scope N_scope.

Inductive rlist := LAdd | LHeld | LRem | LOrphan.

Definition rlist_eqb (a b : rlist) : bool :=
  match a, b with
  | LAdd, LAdd | LHeld, LHeld | LRem, LRem | LOrphan, LOrphan => true
  | _, _ => false
  end.

Lemma rlist_eqb_eq a b : rlist_eqb a b = true <-> a = b.
Proof. destruct a, b; cbn; intuition discriminate. Qed.

(* struct resource, sanlock_internal.h *)
Record res := mkRes {
  r_id : N;               (* identity of the structure (pointer) *)
  r_key : N;
  r_list : rlist;
  r_sh : bool;            (* R_SHARED *)
  r_lver : bool;          (* leader.lver != 0 *)
  r_thread : bool;        (* R_THREAD_RELEASE *)
  r_toks : list N }.

(* struct token *)
Record tok := mkTok {
  t_rid : N;              (* token->resource *)
  t_key : N;
  t_sh : bool;            (* acquire_flags & SANLK_RES_SHARED *)
  t_per : bool;           (* acquire_flags & SANLK_RES_PERSISTENT *)
  t_dead : bool;          (* space_dead *)
  t_ok : bool;            (* acquire_token has returned SANLK_OK *)
  t_conv : option bool }. (* convert_token is running; true: to exclusive *)

Record rst := mkRst {
  s_next : N;             (* next r_id *)
  s_res : list res;
  s_tok : N -> option tok }.

(* find_resource on one list, 1183-1196 *)
Definition find_resource (k : N) (l : rlist) (rs : list res) : option res :=
  find (fun r => (r_key r =? k) && rlist_eqb (r_list r) l) rs.

(* sanlock_resource.h:69-72, sanlock_rv / errno *)
Definition ACQUIRE_LVB : N := 1.
Definition ACQUIRE_ORPHAN : N := 2.
Definition ACQUIRE_ORPHAN_ONLY : N := 4.

Definition has (w b : N) : bool := negb (N.land w b =? 0).

(* what acquire_token does while it holds the mutex, 1655-1800 *)
Inductive decision :=
| DFail (errno : N)
| DJoin (r : res)         (* add a token to a held shared resource *)
| DAdopt (r : res)        (* adopt an orphan *)
| DCreate.

Definition EAGAIN : N := 11.
Definition EBUSY : N := 16.
Definition EEXIST : N := 17.
Definition EUCLEAN : N := 117.
Definition ENOENT : N := 2.

Definition decide (rs : list res) (k : N) (sh : bool) (flags : N) : decision :=
  let allow_orphan := has flags (N.lor ACQUIRE_ORPHAN ACQUIRE_ORPHAN_ONLY) in
  let only_orphan := if has flags ACQUIRE_ORPHAN_ONLY then 1 else 0 in
  match find_resource k LRem rs with
  | Some _ => DFail EAGAIN
  | None =>
  match find_resource k LAdd rs with
  | Some _ => DFail EBUSY
  | None =>
  match find_resource k LHeld rs with
  | Some r => if sh && r_sh r then DJoin r else DFail EEXIST
  | None =>
  match find_resource k LOrphan rs with
  | Some r =>
      if negb allow_orphan then DFail EUCLEAN
      else if r_sh r && negb sh then DFail EUCLEAN
      else if negb (r_sh r) && sh then DFail EUCLEAN
      else DAdopt r
  | None => if has flags only_orphan (* 1777 *) then DFail ENOENT else DCreate
  end end end end.

Definition upd_res (id : N) (f : res -> res) (rs : list res) : list res :=
  map (fun r => if r_id r =? id then f r else r) rs.

Definition del_res (id : N) (rs : list res) : list res :=
  filter (fun r => negb (r_id r =? id)) rs.

Definition get_res (id : N) (rs : list res) : option res := find (fun r => r_id r =? id) rs.

Definition set_tok (m : N -> option tok) (i : N) (v : option tok) : N -> option tok :=
  fun j => if j =? i then v else m j.

Definition set_list (l : rlist) (r : res) : res :=
  mkRes (r_id r) (r_key r) l (r_sh r) (r_lver r) (r_thread r) (r_toks r).
Definition set_toks (ts : list N) (r : res) : res :=
  mkRes (r_id r) (r_key r) (r_list r) (r_sh r) (r_lver r) (r_thread r) ts.
Definition set_sh (b : bool) (r : res) : res :=
  mkRes (r_id r) (r_key r) (r_list r) b (r_lver r) (r_thread r) (r_toks r).
Definition set_thread (r : res) : res :=
  mkRes (r_id r) (r_key r) (r_list r) (r_sh r) (r_lver r) true (r_toks r).

(* list_del(&token->list) *)
Definition rem_tok (i : N) (ts : list N) : list N := filter (fun j => negb (j =? i)) ts.

Inductive rop :=
| OAcquire (i k : N) (sh per : bool) (flags : N)   (* acquire_token up to the disk, 1623-1803 *)
| OAcqOk (i : N)                                    (* 1965-1989 *)
| OAcqFail (i : N)                                  (* release_token_opened / nodisk, 954-960 *)
| ORelease (i : N)                                  (* _release_token, 954-979 *)
| ORelEnd (id : N) (retry : bool)                   (* 1106-1136 *)
| OThread (id : N)                                  (* resource_thread_release, 2252-2377 *)
| OAsync (i : N)                                    (* release_token_async, 1158-1181 *)
| OSpaceDead (i : N)                                (* token->space_dead = 1 *)
| OOrphanRel (id : N)                               (* release_orphan, 2570-2595 *)
| OOrphanPurge (id : N)                             (* purge_resource_orphans, 2597-2616 *)
| OConvert (i : N) (toex : bool)                    (* convert_token, 1552-1601 *)
| OConvEnd (i : N) (ok : bool).                     (* end of convert_sh2ex / ex2sh *)

Definition rstep (s : rst) (o : rop) : option rst :=
  match o with
  | OAcquire i k sh per flags =>
      match s_tok s i with
      | Some _ => None
      | None =>
          match decide (s_res s) k sh flags with
          | DFail _ => Some s
          | DJoin r =>
              Some (mkRst (s_next s) (upd_res (r_id r) (fun r => set_toks (i :: r_toks r) r) (s_res s))
                      (set_tok (s_tok s) i (Some (mkTok (r_id r) k sh per false true None))))
          | DAdopt r =>
              Some (mkRst (s_next s)
                      (upd_res (r_id r) (fun r => set_list LHeld (set_toks (i :: r_toks r) r)) (s_res s))
                      (set_tok (s_tok s) i (Some (mkTok (r_id r) k sh per false true None))))
          | DCreate =>
              Some (mkRst (s_next s + 1)
                      (mkRes (s_next s) k LAdd sh false false [i] :: s_res s)
                      (set_tok (s_tok s) i (Some (mkTok (s_next s) k sh per false false None))))
          end
      end
  | OAcqOk i =>
      match s_tok s i with
      | Some t =>
          if t_ok t then None
          else Some (mkRst (s_next s)
                 (upd_res (t_rid t)
                    (fun r => mkRes (r_id r) (r_key r) LHeld (r_sh r) true (r_thread r) (r_toks r)) (s_res s))
                 (set_tok (s_tok s) i
                    (Some (mkTok (t_rid t) (t_key t) (t_sh t) (t_per t) (t_dead t) true None))))
      | None => None
      end
  | OAcqFail i =>
      match s_tok s i with
      | Some t =>
          if t_ok t then None
          else Some (mkRst (s_next s)
                 (upd_res (t_rid t)
                    (fun r => let ts := rem_tok i (r_toks r) in
                              let r' := set_toks ts r in
                              match ts with [] => set_list LRem r' | _ => r' end) (s_res s))
                 (set_tok (s_tok s) i None))
      | None => None
      end
  | ORelease i =>
      match s_tok s i with
      | Some t =>
          match t_ok t, t_conv t with
          | true, None =>
              Some (mkRst (s_next s)
                 (upd_res (t_rid t)
                    (fun r => let ts := rem_tok i (r_toks r) in
                              let r' := set_toks ts r in
                              match ts with [] => set_list LRem r' | _ => r' end) (s_res s))
                 (set_tok (s_tok s) i None))
          | _, _ => None
          end
      | None => None
      end
  | ORelEnd id retry =>
      match get_res id (s_res s) with
      | Some r =>
          match r_list r, r_thread r with
          | LRem, false =>
              if retry then Some (mkRst (s_next s) (upd_res id set_thread (s_res s)) (s_tok s))
              else Some (mkRst (s_next s) (del_res id (s_res s)) (s_tok s))
          | _, _ => None
          end
      | None => None
      end
  | OThread id =>
      match get_res id (s_res s) with
      | Some r =>
          match r_list r, r_thread r with
          | LRem, true => Some (mkRst (s_next s) (del_res id (s_res s)) (s_tok s))
          | _, _ => None
          end
      | None => None
      end
  | OAsync i =>
      match s_tok s i with
      | Some t =>
          match t_ok t, t_conv t with
          | true, None =>
              match get_res (t_rid t) (s_res s) with
              | Some r =>
                  let ts := rem_tok i (r_toks r) in
                  let rs :=
                    match ts with
                    | [] =>
                        if t_dead t || negb (r_lver r) then del_res (t_rid t) (s_res s)
                        else if t_per t then
                          upd_res (t_rid t) (fun r => set_list LOrphan (set_toks ts r)) (s_res s)
                        else
                          upd_res (t_rid t) (fun r => set_thread (set_list LRem (set_toks ts r))) (s_res s)
                    | _ => upd_res (t_rid t) (set_toks ts) (s_res s)
                    end in
                  Some (mkRst (s_next s) rs (set_tok (s_tok s) i None))
              | None => None
              end
          | _, _ => None
          end
      | None => None
      end
  | OSpaceDead i =>
      match s_tok s i with
      | Some t =>
          Some (mkRst (s_next s) (s_res s)
                  (set_tok (s_tok s) i
                     (Some (mkTok (t_rid t) (t_key t) (t_sh t) (t_per t) true (t_ok t) (t_conv t)))))
      | None => None
      end
  | OOrphanRel id =>
      match get_res id (s_res s) with
      | Some r =>
          match r_list r with
          | LOrphan => Some (mkRst (s_next s) (upd_res id (fun r => set_thread (set_list LRem r)) (s_res s)) (s_tok s))
          | _ => None
          end
      | None => None
      end
  | OOrphanPurge id =>
      match get_res id (s_res s) with
      | Some r =>
          match r_list r with
          | LOrphan => Some (mkRst (s_next s) (del_res id (s_res s)) (s_tok s))
          | _ => None
          end
      | None => None
      end
  | OConvert i toex =>
      match s_tok s i with
      | Some t =>
          match t_ok t, t_conv t with
          | true, None =>
              match find_resource (t_key t) LHeld (s_res s) with
              | Some r =>
                  (* the token is in the list; sh_count agrees with R_SHARED; the mode
                     asked for is not the current one *)
                  if existsb (N.eqb i) (r_toks r) && Bool.eqb (r_sh r) toex &&
                     Bool.eqb (r_sh r)
                       (existsb (fun j => match s_tok s j with Some t => t_sh t | None => false end) (r_toks r))
                  then Some (mkRst (s_next s) (s_res s)
                        (set_tok (s_tok s) i
                          (Some (mkTok (t_rid t) (t_key t) (t_sh t) (t_per t) (t_dead t) true (Some toex)))))
                  else Some s
              | None => Some s
              end
          | _, _ => None
          end
      | None => None
      end
  | OConvEnd i ok =>
      match s_tok s i with
      | Some t =>
          match t_conv t with
          | Some toex =>
              let sh := if ok then negb toex else t_sh t in
              Some (mkRst (s_next s)
                      (if ok then upd_res (t_rid t) (set_sh (negb toex)) (s_res s) else s_res s)
                      (set_tok (s_tok s) i
                        (Some (mkTok (t_rid t) (t_key t) sh (t_per t) (t_dead t) true None))))
          | None => None
          end
      | None => None
      end
  end.

Definition rinit : rst := mkRst 0 [] (fun _ => None).

(* runs in which every step satisfies a condition *)
Inductive rreach (P : rst -> rop -> Prop) : rst -> Prop :=
| rr_init : rreach P rinit
| rr_step s o s' : rreach P s -> P s o -> rstep s o = Some s' -> rreach P s'.

Fixpoint rrun (s : rst) (l : list rop) : option rst :=
  match l with
  | [] => Some s
  | o :: r => match rstep s o with Some s' => rrun s' r | None => None end
  end.

Lemma rrun_reach l : forall s s', rreach (fun _ _ => True) s -> rrun s l = Some s' ->
  rreach (fun _ _ => True) s'.
Proof.
  induction l as [|o r IH]; cbn; intros s s' R H.
  - injection H as <-. auto.
  - destruct (rstep s o) as [s1|] eqn:E; [|discriminate].
    eapply IH; [|exact H]. eapply rr_step; eauto.
Qed.

(* A conversion to exclusive ends while the token is the only one of the resource. *)
Definition alone (s : rst) (o : rop) : Prop :=
  match o with
  | OConvEnd i true =>
      forall t r, s_tok s i = Some t -> t_conv t = Some true ->
        In r (s_res s) -> r_id r = t_rid t -> r_toks r = [i]
  | _ => True
  end.

(* ------------------------------------------------------------ invariant *)

Record rinv (s : rst) : Prop := mkRinv {
  RI_ids : NoDup (map r_id (s_res s));
  RI_keys : NoDup (map r_key (s_res s));
  RI_next : forall r, In r (s_res s) -> r_id r < s_next s;
  RI_tok : forall i t, s_tok s i = Some t ->
    exists r, In r (s_res s) /\ r_id r = t_rid t /\ r_key r = t_key t /\ In i (r_toks r) /\
      r_sh r = t_sh t /\ (t_ok t = true -> r_list r = LHeld) /\
      (t_ok t = false -> r_list r = LAdd);
  RI_res : forall r, In r (s_res s) ->
    NoDup (r_toks r) /\
    (forall i, In i (r_toks r) -> exists t, s_tok s i = Some t /\ t_rid t = r_id r) /\
    match r_list r with
    | LAdd => exists i, r_toks r = [i]
    | LHeld => r_toks r <> [] /\ (r_sh r = false -> exists i, r_toks r = [i])
    | _ => r_toks r = []
    end;
  RI_conv : forall i t b, s_tok s i = Some t -> t_conv t = Some b -> t_ok t = true /\ (b = false -> t_sh t = false) }.

Lemma upd_res_In id f rs x :
  In x (upd_res id f rs) ->
  (exists r, In r rs /\ r_id r = id /\ x = f r) \/ (In x rs /\ r_id x <> id).
Proof.
  unfold upd_res. rewrite in_map_iff. intros (r & E & H).
  destruct (r_id r =? id) eqn:I; subst x.
  - left. exists r. apply N.eqb_eq in I. auto.
  - right. apply N.eqb_neq in I. auto.
Qed.

Lemma In_upd_res id f rs r : In r rs -> r_id r = id -> In (f r) (upd_res id f rs).
Proof.
  intros H E. apply in_map_iff. exists r. split; [|auto]. rewrite (proj2 (N.eqb_eq _ _) E). auto.
Qed.

Lemma In_upd_res_other id f rs r : In r rs -> r_id r <> id -> In r (upd_res id f rs).
Proof.
  intros H E. apply in_map_iff. exists r. split; [|auto]. rewrite (proj2 (N.eqb_neq _ _) E). auto.
Qed.

Lemma upd_res_ids id f rs : (forall r, r_id (f r) = r_id r) -> map r_id (upd_res id f rs) = map r_id rs.
Proof.
  intros H. unfold upd_res. rewrite map_map. apply map_ext. intros r.
  destruct (r_id r =? id); auto.
Qed.

Lemma upd_res_keys id f rs : (forall r, r_key (f r) = r_key r) -> map r_key (upd_res id f rs) = map r_key rs.
Proof.
  intros H. unfold upd_res. rewrite map_map. apply map_ext. intros r.
  destruct (r_id r =? id); auto.
Qed.

Lemma NoDup_map_inj {A B} (f : A -> B) l x y : NoDup (map f l) -> In x l -> In y l -> f x = f y -> x = y.
Proof.
  induction l as [|a l IH]; cbn; intros N Hx Hy E; [destruct Hx|].
  inversion N; subst. destruct Hx as [->|Hx], Hy as [->|Hy]; auto.
  - exfalso. apply H1. rewrite E. apply in_map. auto.
  - exfalso. apply H1. rewrite <- E. apply in_map. auto.
Qed.

Lemma NoDup_map_filter {A B} (f : A -> B) g l : NoDup (map f l) -> NoDup (map f (filter g l)).
Proof.
  induction l as [|a l IH]; cbn; intros N; [constructor|]. inversion N; subst.
  destruct (g a); cbn; auto. constructor; auto.
  rewrite in_map_iff in *. intros (x & E & H). apply H1. exists x. apply filter_In in H as [H _]. auto.
Qed.

Lemma del_res_In id rs x : In x (del_res id rs) <-> In x rs /\ r_id x <> id.
Proof.
  unfold del_res. rewrite filter_In, negb_true_iff, N.eqb_neq. reflexivity.
Qed.

Lemma get_res_In id rs r : get_res id rs = Some r -> In r rs /\ r_id r = id.
Proof. intros H. apply find_some in H as [H E]. apply N.eqb_eq in E. auto. Qed.

Lemma find_resource_In k l rs r :
  find_resource k l rs = Some r -> In r rs /\ r_key r = k /\ r_list r = l.
Proof.
  intros H. apply find_some in H as [H E]. apply andb_true_iff in E as [E1 E2].
  apply N.eqb_eq in E1. apply rlist_eqb_eq in E2. auto.
Qed.

Lemma find_resource_None k l rs r :
  find_resource k l rs = None -> In r rs -> r_key r = k -> r_list r <> l.
Proof.
  intros H Hr E L. pose proof (find_none _ _ H r Hr) as F. cbn in F.
  rewrite (proj2 (N.eqb_eq _ _) E), (proj2 (rlist_eqb_eq _ _) L) in F. discriminate.
Qed.

Lemma set_tok_same m i v : set_tok m i v i = v.
Proof. unfold set_tok. rewrite N.eqb_refl. auto. Qed.
Lemma set_tok_other m i v j : j <> i -> set_tok m i v j = m j.
Proof. unfold set_tok. intros H. rewrite (proj2 (N.eqb_neq _ _) H). auto. Qed.

Lemma rem_tok_In i ts j : In j (rem_tok i ts) <-> In j ts /\ j <> i.
Proof. unfold rem_tok. rewrite filter_In, negb_true_iff, N.eqb_neq. reflexivity. Qed.

Lemma rem_tok_NoDup i ts : NoDup ts -> NoDup (rem_tok i ts).
Proof. apply NoDup_filter. Qed.

(* resources and tokens that the step does not concern keep their part of the
   invariant; what remains is the one resource and the one token *)

(* the resource r0 becomes f r0, the token i becomes v *)
Lemma rinv_update s i r0 f v nx :
  rinv s -> In r0 (s_res s) ->
  (forall r, r_id (f r) = r_id r) -> (forall r, r_key (f r) = r_key r) ->
  s_next s <= nx ->
  (* tokens of r0 other than i stay, none is added *)
  (forall j, j <> i -> (In j (r_toks (f r0)) <-> In j (r_toks r0))) ->
  NoDup (r_toks (f r0)) ->
  (forall j t, j <> i -> s_tok s j = Some t -> t_rid t = r_id r0 ->
     r_sh (f r0) = t_sh t /\ (t_ok t = true -> r_list (f r0) = LHeld) /\
     (t_ok t = false -> r_list (f r0) = LAdd)) ->
  (* the token *)
  (forall t, s_tok s i = Some t -> t_rid t = r_id r0) ->
  (match v with
   | Some t => t_rid t = r_id r0 /\ t_key t = r_key r0 /\ In i (r_toks (f r0)) /\
       r_sh (f r0) = t_sh t /\
       (t_ok t = true -> r_list (f r0) = LHeld) /\ (t_ok t = false -> r_list (f r0) = LAdd) /\
       (forall b, t_conv t = Some b -> t_ok t = true /\ (b = false -> t_sh t = false))
   | None => ~ In i (r_toks (f r0))
   end) ->
  match r_list (f r0) with
  | LAdd => exists i, r_toks (f r0) = [i]
  | LHeld => r_toks (f r0) <> [] /\ (r_sh (f r0) = false -> exists i, r_toks (f r0) = [i])
  | _ => r_toks (f r0) = []
  end ->
  rinv (mkRst nx (upd_res (r_id r0) f (s_res s)) (set_tok (s_tok s) i v)).
Proof.
  intros [I1 I2 I3 I4 I5 I6] Hr0 Fi Fk Nx Toks ND Oth Ti V Sh.
  assert (U : forall r, In r (s_res s) -> r_id r = r_id r0 -> r = r0)
    by (intros r Hr E; exact (NoDup_map_inj _ _ _ _ I1 Hr Hr0 E)).
  split; cbn.
  - rewrite upd_res_ids; auto.
  - rewrite upd_res_keys; auto.
  - intros r Hr. apply upd_res_In in Hr as [(r1 & H1 & H2 & ->)|[H1 H2]].
    + rewrite Fi. apply I3 in H1. lia.
    + apply I3 in H1. lia.
  - intros j t Hj. destruct (N.eq_dec j i) as [->|Nj].
    + rewrite set_tok_same in Hj. rewrite Hj in V.
      destruct V as (V1 & V2 & V3 & V4 & V5 & V6 & V7). exists (f r0).
      split; [apply In_upd_res; auto|]. rewrite Fi, Fk. auto 10.
    + rewrite set_tok_other in Hj by auto. destruct (I4 j t Hj) as (r & H1 & H2 & H3 & H4 & H5 & H6 & H7).
      destruct (N.eq_dec (r_id r) (r_id r0)) as [E|E].
      * apply U in E; [|auto]. subst r. exists (f r0).
        split; [apply In_upd_res; auto|]. rewrite Fi, Fk.
        split; [auto|]. split; [auto|]. split; [apply Toks; auto|].
        apply (Oth j t Nj Hj). auto.
      * exists r. split; [apply In_upd_res_other; auto|]. auto 10.
  - intros r Hr. apply upd_res_In in Hr as [(r1 & H1 & H2 & ->)|[H1 H2]].
    + apply U in H2; [|auto]. subst r1. split; [auto|]. split; [|auto].
      intros j Hj. destruct (N.eq_dec j i) as [->|Nj].
      * rewrite set_tok_same. destruct v as [t|]; [|contradiction]. exists t.
        destruct V as (V1 & _). rewrite Fi. auto.
      * rewrite set_tok_other by auto. rewrite Fi. apply (proj1 (proj2 (I5 r0 Hr0))). apply Toks; auto.
    + destruct (I5 r H1) as (A & B & C). split; [auto|]. split; [|auto].
      intros j Hj. destruct (B j Hj) as (t & T1 & T2).
      destruct (N.eq_dec j i) as [->|Nj].
      * exfalso. apply H2. rewrite <- T2. apply Ti. auto.
      * rewrite set_tok_other by auto. eauto.
  - intros j t b Hj. destruct (N.eq_dec j i) as [->|Nj].
    + rewrite set_tok_same in Hj. rewrite Hj in V. destruct V as (_ & _ & _ & _ & _ & _ & V). auto.
    + rewrite set_tok_other in Hj by auto. eauto.
Qed.

(* a resource without other tokens than i is freed, and the token with it *)
Lemma rinv_delete s i r0 :
  rinv s -> In r0 (s_res s) ->
  (forall j, In j (r_toks r0) -> j = i) ->
  (forall t, s_tok s i = Some t -> t_rid t = r_id r0) ->
  rinv (mkRst (s_next s) (del_res (r_id r0) (s_res s)) (set_tok (s_tok s) i None)).
Proof.
  intros [I1 I2 I3 I4 I5 I6] Hr0 Only Ti.
  assert (U : forall r, In r (s_res s) -> r_id r = r_id r0 -> r = r0)
    by (intros r Hr E; exact (NoDup_map_inj _ _ _ _ I1 Hr Hr0 E)).
  split; cbn.
  - apply NoDup_map_filter. auto.
  - apply NoDup_map_filter. auto.
  - intros r Hr. apply del_res_In in Hr as [Hr _]. auto.
  - intros j t Hj. destruct (N.eq_dec j i) as [->|Nj]; [rewrite set_tok_same in Hj; discriminate|].
    rewrite set_tok_other in Hj by auto. destruct (I4 j t Hj) as (r & H1 & H2 & H3 & H4 & H5).
    exists r. split; [|auto]. apply del_res_In. split; [auto|]. intros E. apply U in E; [|auto]. subst r.
    apply Nj. auto.
  - intros r Hr. apply del_res_In in Hr as [Hr Hn]. destruct (I5 r Hr) as (A & B & C).
    split; [auto|]. split; [|auto]. intros j Hj. destruct (B j Hj) as (t & T1 & T2).
    destruct (N.eq_dec j i) as [->|Nj].
    + exfalso. apply Hn. rewrite <- T2. apply Ti. auto.
    + rewrite set_tok_other by auto. eauto.
  - intros j t b Hj. destruct (N.eq_dec j i) as [->|Nj]; [rewrite set_tok_same in Hj; discriminate|].
    rewrite set_tok_other in Hj by auto. eauto.
Qed.

(* nobody has a token of a resource without tokens *)
Lemma fresh_tok s : rinv s -> forall r0, In r0 (s_res s) -> r_toks r0 = [] ->
  forall j t, s_tok s j = Some t -> t_rid t <> r_id r0.
Proof.
  intros [I1 I2 I3 I4 I5 I6] r0 H0 E j t Hj Eq.
  destruct (I4 j t Hj) as (r & H1 & H2 & _ & H4 & _).
  assert (r = r0) by (apply (NoDup_map_inj _ _ _ _ I1 H1 H0); congruence). subst r.
  rewrite E in H4. destruct H4.
Qed.

(* a resource without tokens changes its list or is freed *)
Lemma rinv_update0 s r0 f :
  rinv s -> In r0 (s_res s) -> r_toks r0 = [] ->
  (forall r, r_id (f r) = r_id r) -> (forall r, r_key (f r) = r_key r) ->
  r_toks (f r0) = [] -> r_list (f r0) = LRem \/ r_list (f r0) = LOrphan ->
  rinv (mkRst (s_next s) (upd_res (r_id r0) f (s_res s)) (s_tok s)).
Proof.
  intros [I1 I2 I3 I4 I5 I6] Hr0 E0 Fi Fk E1 L1.
  assert (U : forall r, In r (s_res s) -> r_id r = r_id r0 -> r = r0)
    by (intros r Hr E; exact (NoDup_map_inj _ _ _ _ I1 Hr Hr0 E)).
  split; cbn; auto.
  - rewrite upd_res_ids; auto.
  - rewrite upd_res_keys; auto.
  - intros r Hr. apply upd_res_In in Hr as [(r1 & H1 & H2 & ->)|[H1 H2]]; [rewrite Fi|]; auto.
  - intros j t Hj. destruct (I4 j t Hj) as (r & H1 & H2 & H3 & H4 & H5).
    exists r. split; [|auto]. apply In_upd_res_other; [auto|]. intros E. apply U in E; [|auto].
    subst r. rewrite E0 in H4. destruct H4.
  - intros r Hr. apply upd_res_In in Hr as [(r1 & H1 & H2 & ->)|[H1 H2]]; [|auto].
    apply U in H2; [|auto]. subst r1. rewrite E1. split; [constructor|]. split; [intros i []|].
    destruct L1 as [->| ->]; auto.
Qed.

Lemma rinv_delete0 s r0 :
  rinv s -> In r0 (s_res s) -> r_toks r0 = [] ->
  rinv (mkRst (s_next s) (del_res (r_id r0) (s_res s)) (s_tok s)).
Proof.
  intros [I1 I2 I3 I4 I5 I6] Hr0 E0.
  assert (U : forall r, In r (s_res s) -> r_id r = r_id r0 -> r = r0)
    by (intros r Hr E; exact (NoDup_map_inj _ _ _ _ I1 Hr Hr0 E)).
  split; cbn; auto.
  - apply NoDup_map_filter. auto.
  - apply NoDup_map_filter. auto.
  - intros r Hr. apply del_res_In in Hr as [Hr _]. auto.
  - intros j t Hj. destruct (I4 j t Hj) as (r & H1 & H2 & H3 & H4 & H5).
    exists r. split; [|auto]. apply del_res_In. split; [auto|]. intros E. apply U in E; [|auto].
    subst r. rewrite E0 in H4. destruct H4.
  - intros r Hr. apply del_res_In in Hr as [Hr _]. auto.
Qed.

(* a new resource with one token *)
Lemma rinv_create s i k sh per :
  rinv s -> s_tok s i = None -> (forall r, In r (s_res s) -> r_key r <> k) ->
  rinv (mkRst (s_next s + 1) (mkRes (s_next s) k LAdd sh false false [i] :: s_res s)
          (set_tok (s_tok s) i (Some (mkTok (s_next s) k sh per false false None)))).
Proof.
  intros [I1 I2 I3 I4 I5 I6] Ni Nk. split; cbn.
  - constructor; auto. rewrite in_map_iff. intros (r & E & H). apply I3 in H. lia.
  - constructor; auto. rewrite in_map_iff. intros (r & E & H). exact (Nk r H E).
  - intros r [<-|H]; cbn; [lia|]. apply I3 in H. lia.
  - intros j t Hj. destruct (N.eq_dec j i) as [->|Nj].
    + rewrite set_tok_same in Hj. injection Hj as <-. eexists. split; [left; reflexivity|].
      cbn. repeat split; auto. discriminate.
    + rewrite set_tok_other in Hj by auto. destruct (I4 j t Hj) as (r & H1 & H2).
      exists r. auto.
  - intros r [<-|Hr]; cbn.
    + split; [repeat constructor; auto|]. split; [|eauto].
      intros j [<-|[]]. rewrite set_tok_same. eexists. split; [reflexivity|]. reflexivity.
    + destruct (I5 r Hr) as (A & B & C). split; [auto|]. split; [|auto].
      intros j Hj. destruct (B j Hj) as (t & T1 & T2). rewrite set_tok_other by congruence. eauto.
  - intros j t b Hj. destruct (N.eq_dec j i) as [->|Nj].
    + rewrite set_tok_same in Hj. injection Hj as <-. discriminate.
    + rewrite set_tok_other in Hj by auto. eauto.
Qed.

Lemma decide_none rs k sh flags :
  decide rs k sh flags = DCreate -> forall r, In r rs -> r_key r <> k.
Proof.
  unfold decide. intros H r Hr E.
  destruct (find_resource k LRem rs) eqn:E1; [discriminate|].
  destruct (find_resource k LAdd rs) eqn:E2; [discriminate|].
  destruct (find_resource k LHeld rs) as [r1|] eqn:E3; [destruct (sh && r_sh r1); discriminate|].
  destruct (find_resource k LOrphan rs) as [r1|] eqn:E4.
  { repeat match type of H with (if ?b then _ else _) = _ => destruct b end; discriminate. }
  pose proof (find_resource_None _ _ _ r E1 Hr E).
  pose proof (find_resource_None _ _ _ r E2 Hr E).
  pose proof (find_resource_None _ _ _ r E3 Hr E).
  pose proof (find_resource_None _ _ _ r E4 Hr E).
  destruct (r_list r); congruence.
Qed.

Lemma decide_join rs k sh flags r :
  decide rs k sh flags = DJoin r -> In r rs /\ r_key r = k /\ r_list r = LHeld /\ sh = true /\ r_sh r = true.
Proof.
  unfold decide. intros H.
  destruct (find_resource k LRem rs) eqn:E1; [discriminate|].
  destruct (find_resource k LAdd rs) eqn:E2; [discriminate|].
  destruct (find_resource k LHeld rs) as [r1|] eqn:E3.
  { destruct (sh && r_sh r1) eqn:B; [|discriminate]. injection H as <-.
    apply andb_true_iff in B. apply find_resource_In in E3. intuition. }
  destruct (find_resource k LOrphan rs) as [r1|] eqn:E4;
    repeat match type of H with (if ?b then _ else _) = _ => destruct b end; discriminate.
Qed.

Lemma decide_adopt rs k sh flags r :
  decide rs k sh flags = DAdopt r -> In r rs /\ r_key r = k /\ r_list r = LOrphan /\ r_sh r = sh.
Proof.
  unfold decide. intros H.
  destruct (find_resource k LRem rs) eqn:E1; [discriminate|].
  destruct (find_resource k LAdd rs) eqn:E2; [discriminate|].
  destruct (find_resource k LHeld rs) as [r1|] eqn:E3; [destruct (sh && r_sh r1); discriminate|].
  destruct (find_resource k LOrphan rs) as [r1|] eqn:E4.
  2:{ repeat match type of H with (if ?b then _ else _) = _ => destruct b end; discriminate. }
  apply find_resource_In in E4 as (A & B & C).
  repeat match type of H with (if ?b then _ else _) = _ => destruct b eqn:? end; try discriminate.
  injection H as <-. split; [auto|]. split; [auto|]. split; [auto|].
  destruct (r_sh r1), sh; cbn in *; congruence.
Qed.

Lemma rem_one ts i : NoDup ts -> In i ts -> (exists j, ts = [j]) -> rem_tok i ts = [].
Proof.
  intros _ H (j & ->). destruct H as [->|[]]. unfold rem_tok. cbn. rewrite N.eqb_refl. reflexivity.
Qed.

(* what a token of the model tells about its resource *)
Lemma tok_res s i t :
  rinv s -> s_tok s i = Some t ->
  exists r0, In r0 (s_res s) /\ r_id r0 = t_rid t /\ r_key r0 = t_key t /\ In i (r_toks r0) /\
    r_sh r0 = t_sh t /\ (t_ok t = true -> r_list r0 = LHeld) /\ (t_ok t = false -> r_list r0 = LAdd) /\
    NoDup (r_toks r0).
Proof.
  intros I H. destruct (RI_tok _ I i t H) as (r & H1 & H2 & H3 & H4 & H5 & H6 & H7).
  exists r. destruct (RI_res _ I r H1) as (A & _). auto 10.
Qed.

(* removal of one token of a resource (list_del, then resources_rem when empty) *)
Lemma rinv_list_del s i t r0 g :
  rinv s -> s_tok s i = Some t -> In r0 (s_res s) -> r_id r0 = t_rid t ->
  (forall r, r_id (g r) = r_id r) -> (forall r, r_key (g r) = r_key r) ->
  r_toks (g r0) = rem_tok i (r_toks r0) ->
  (rem_tok i (r_toks r0) = [] -> r_list (g r0) = LRem \/ r_list (g r0) = LOrphan) ->
  (rem_tok i (r_toks r0) <> [] -> r_list (g r0) = r_list r0 /\ r_sh (g r0) = r_sh r0) ->
  rinv (mkRst (s_next s) (upd_res (r_id r0) g (s_res s)) (set_tok (s_tok s) i None)).
Proof.
  intros I Hi Hr Er Gi Gk Gt Ge Gn.
  destruct (RI_res _ I r0 Hr) as (ND & Tk & Sh).
  assert (Own : forall j t', j <> i -> s_tok s j = Some t' -> t_rid t' = r_id r0 ->
      rem_tok i (r_toks r0) <> [] /\ r_sh r0 = t_sh t' /\
      (t_ok t' = true -> r_list r0 = LHeld) /\ (t_ok t' = false -> r_list r0 = LAdd)).
  { intros j t' Nj Hj E. destruct (RI_tok _ I j t' Hj) as (r & H1 & H2 & H3 & H4 & H5 & H6 & H7).
    assert (r = r0) by (apply (NoDup_map_inj _ _ _ _ (RI_ids _ I) H1 Hr); congruence). subst r.
    split; [|auto]. intros E0. assert (In j (rem_tok i (r_toks r0))) by (apply rem_tok_In; auto).
    rewrite E0 in H. destruct H. }
  apply rinv_update; auto.
  - lia.
  - intros j Nj. rewrite Gt, rem_tok_In. tauto.
  - rewrite Gt. apply rem_tok_NoDup. auto.
  - intros j t' Nj Hj E. destruct (Own j t' Nj Hj E) as (O1 & O2 & O3 & O4).
    destruct (Gn O1) as [-> ->]. auto.
  - intros t' Ht. assert (t' = t) by congruence. subst t'. auto.
  - rewrite Gt, rem_tok_In. tauto.
  - rewrite Gt. destruct (rem_tok i (r_toks r0)) as [|a l] eqn:E.
    + destruct (Ge eq_refl) as [->| ->]; auto.
    + destruct Gn as [-> ->]; [discriminate|].
      destruct (r_list r0).
      * destruct Sh as (j & Sh). exfalso. rewrite Sh in E. unfold rem_tok in E. cbn in E.
        assert (Ii : In i (r_toks r0)).
        { destruct (RI_tok _ I i t Hi) as (r & H1 & H2 & H3 & H4 & _).
          assert (r = r0) by (apply (NoDup_map_inj _ _ _ _ (RI_ids _ I) H1 Hr); congruence).
          subst r. auto. }
        rewrite Sh in Ii. destruct Ii as [->|[]]. rewrite N.eqb_refl in E. discriminate.
      * split; [discriminate|]. intros Sf. destruct Sh as [_ Sh]. destruct (Sh Sf) as (j & Sj).
        rewrite Sj in E. unfold rem_tok in E. cbn in E. destruct (negb (j =? i)); [|discriminate].
        injection E as <- <-. eauto.
      * rewrite Sh in E. discriminate.
      * rewrite Sh in E. discriminate.
Qed.

Lemma rinv_step s o s' : rinv s -> alone s o -> rstep s o = Some s' -> rinv s'.
Proof.
  intros I A H.
  destruct o as [i k sh per flags|i|i|i|id retry|id|i|i|id|id|i toex|i ok]; cbn in H.
  - (* acquire *)
    destruct (s_tok s i) eqn:Ni; [discriminate|].
    destruct (decide (s_res s) k sh flags) as [e|r|r|] eqn:D.
    + injection H as <-. auto.
    + apply decide_join in D as (D1 & D2 & D3 & D4 & D5). injection H as <-.
      destruct (RI_res _ I r D1) as (ND & Tk & Sh). rewrite D3 in Sh.
      assert (Nin : ~ In i (r_toks r)).
      { intros X. destruct (Tk i X) as (t & T1 & _). congruence. }
      apply rinv_update; cbn; auto; try lia.
      * intros j Nj. split; [intros [X|X]; [congruence|auto]|auto].
      * constructor; auto.
      * intros j t Nj Hj E. destruct (RI_tok _ I j t Hj) as (r1 & H1 & H2 & H3 & H4 & H5 & H6 & H7).
        assert (r1 = r) by (apply (NoDup_map_inj _ _ _ _ (RI_ids _ I) H1 D1); congruence). subst r1. auto.
      * congruence.
      * subst. split; [auto|]. split; [auto|]. split; [auto|]. split; [auto|]. split; [auto|].
        split; discriminate.
      * rewrite D3. split; [discriminate|]. congruence.
    + apply decide_adopt in D as (D1 & D2 & D3 & D4). injection H as <-.
      destruct (RI_res _ I r D1) as (ND & Tk & Sh). rewrite D3 in Sh.
      apply rinv_update; cbn; auto; try lia.
      * intros j Nj. split; [intros [X|X]; [congruence|auto]|auto].
      * rewrite Sh. repeat constructor; auto.
      * intros j t Nj Hj E. exfalso. exact (fresh_tok _ I r D1 Sh j t Hj E).
      * congruence.
      * split; [auto|]. split; [auto|]. split; [auto|]. split; [auto|]. split; [auto|].
        split; discriminate.
      * rewrite Sh. split; [discriminate|]. eauto.
    + injection H as <-. apply rinv_create; auto. eapply decide_none; eauto.
  - (* acquired *)
    destruct (s_tok s i) as [t|] eqn:Hi; [|discriminate]. destruct (t_ok t) eqn:Ok; [discriminate|].
    injection H as <-. destruct (tok_res _ _ _ I Hi) as (r & H1 & H2 & H3 & H4 & H5 & H6 & H7 & ND).
    rewrite <- H2. destruct (RI_res _ I r H1) as (_ & Tk & Sh). rewrite (H7 Ok) in Sh.
    destruct Sh as (i' & Sh). assert (i' = i) by (rewrite Sh in H4; destruct H4 as [->|[]]; auto). subst i'.
    apply rinv_update; cbn; auto; try lia.
    + intros j Nj. reflexivity.
    + intros j t' Nj Hj E. exfalso. destruct (RI_tok _ I j t' Hj) as (r1 & X1 & X2 & _ & X4 & _).
      assert (r1 = r) by (apply (NoDup_map_inj _ _ _ _ (RI_ids _ I) X1 H1); congruence). subst r1.
      rewrite Sh in X4. destruct X4 as [X4|[]]. congruence.
    + intros t' Ht. assert (t' = t) by congruence. subst. auto.
    + repeat split; auto; discriminate.
    + rewrite Sh. split; [discriminate|]. eauto.
  - (* acquire failed *)
    destruct (s_tok s i) as [t|] eqn:Hi; [|discriminate]. destruct (t_ok t) eqn:Ok; [discriminate|].
    injection H as <-. destruct (tok_res _ _ _ I Hi) as (r & H1 & H2 & H3 & H4 & H5 & H6 & H7 & ND).
    rewrite <- H2.
    eapply rinv_list_del; eauto; cbn.
    + intros r1. destruct (rem_tok i (r_toks r1)); reflexivity.
    + intros r1. destruct (rem_tok i (r_toks r1)); reflexivity.
    + destruct (rem_tok i (r_toks r)) eqn:E; cbn; congruence.
    + intros ->. cbn. auto.
    + destruct (rem_tok i (r_toks r)); [congruence|]. cbn. auto.
  - (* release *)
    destruct (s_tok s i) as [t|] eqn:Hi; [|discriminate]. destruct (t_ok t) eqn:Ok; [|discriminate].
    destruct (t_conv t); [discriminate|].
    injection H as <-. destruct (tok_res _ _ _ I Hi) as (r & H1 & H2 & H3 & H4 & H5 & H6 & H7 & ND).
    rewrite <- H2.
    eapply rinv_list_del; eauto; cbn.
    + intros r1. destruct (rem_tok i (r_toks r1)); reflexivity.
    + intros r1. destruct (rem_tok i (r_toks r1)); reflexivity.
    + destruct (rem_tok i (r_toks r)) eqn:E; cbn; congruence.
    + intros ->. cbn. auto.
    + destruct (rem_tok i (r_toks r)); [congruence|]. cbn. auto.
  - (* end of a release *)
    destruct (get_res id (s_res s)) as [r|] eqn:G; [|discriminate]. apply get_res_In in G as [G <-].
    destruct (r_list r) eqn:L; try discriminate. destruct (r_thread r); [discriminate|].
    destruct (RI_res _ I r G) as (_ & _ & Sh). rewrite L in Sh.
    destruct retry; injection H as <-; [apply rinv_update0|apply rinv_delete0]; auto.
  - destruct (get_res id (s_res s)) as [r|] eqn:G; [|discriminate]. apply get_res_In in G as [G <-].
    destruct (r_list r) eqn:L; try discriminate. destruct (r_thread r); [|discriminate].
    destruct (RI_res _ I r G) as (_ & _ & Sh). rewrite L in Sh.
    injection H as <-. apply rinv_delete0; auto.
  - (* async release *)
    destruct (s_tok s i) as [t|] eqn:Hi; [|discriminate]. destruct (t_ok t) eqn:Ok; [|discriminate].
    destruct (t_conv t); [discriminate|].
    destruct (get_res (t_rid t) (s_res s)) as [r|] eqn:G; [|discriminate].
    apply get_res_In in G as [G Er]. injection H as <-. rewrite <- Er.
    destruct (rem_tok i (r_toks r)) eqn:E.
    + destruct (t_dead t || negb (r_lver r)).
      * apply rinv_delete; auto.
        -- intros j Hj. destruct (N.eq_dec j i) as [->|Nj]; [auto|exfalso].
           assert (X : In j (rem_tok i (r_toks r))) by (apply rem_tok_In; auto). rewrite E in X. destruct X.
        -- intros t' Ht. assert (t' = t) by congruence. subst. auto.
      * destruct (t_per t); eapply rinv_list_del; eauto; cbn; try congruence; auto.
    + eapply rinv_list_del; eauto; cbn; try congruence; auto.
  - (* space_dead *)
    destruct (s_tok s i) as [t|] eqn:Hi; [|discriminate]. injection H as <-.
    destruct (tok_res _ _ _ I Hi) as (r & H1 & H2 & H3 & H4 & H5 & H6 & H7 & ND).
    assert (Same : upd_res (r_id r) (fun r => r) (s_res s) = s_res s).
    { unfold upd_res. rewrite <- (map_id (s_res s)) at 2. apply map_ext. intros a. destruct (r_id a =? r_id r); auto. }
    rewrite <- Same. destruct (RI_res _ I r H1) as (_ & _ & Sh).
    apply rinv_update; cbn; auto; try lia.
    + reflexivity.
    + intros j t' Nj Hj E. destruct (RI_tok _ I j t' Hj) as (r1 & X1 & X2 & _ & X4 & X5 & X6 & X7).
      assert (r1 = r) by (apply (NoDup_map_inj _ _ _ _ (RI_ids _ I) X1 H1); congruence). subst r1. auto.
    + intros t' Ht. assert (t' = t) by congruence. subst. auto.
    + pose proof (fun b => RI_conv _ I i t b Hi) as C. do 6 (split; [auto; fail|]). exact C.
  - destruct (get_res id (s_res s)) as [r|] eqn:G; [|discriminate]. apply get_res_In in G as [G <-].
    destruct (r_list r) eqn:L; try discriminate.
    destruct (RI_res _ I r G) as (_ & _ & Sh). rewrite L in Sh.
    injection H as <-. apply rinv_update0; auto.
  - destruct (get_res id (s_res s)) as [r|] eqn:G; [|discriminate]. apply get_res_In in G as [G <-].
    destruct (r_list r) eqn:L; try discriminate.
    destruct (RI_res _ I r G) as (_ & _ & Sh). rewrite L in Sh.
    injection H as <-. apply rinv_delete0; auto.
  - (* convert begins *)
    destruct (s_tok s i) as [t|] eqn:Hi; [|discriminate]. destruct (t_ok t) eqn:Ok; [|discriminate].
    destruct (t_conv t); [discriminate|].
    destruct (find_resource (t_key t) LHeld (s_res s)) as [r|] eqn:F; [|injection H as <-; auto].
    match type of H with (if ?b then _ else _) = _ => destruct b eqn:B end; [|injection H as <-; auto].
    injection H as <-. rewrite !andb_true_iff in B. destruct B as [[B1 B2] _].
    apply existsb_exists in B1 as (i' & B1 & B1'). apply N.eqb_eq in B1'. subst i'.
    apply eqb_prop in B2. apply find_resource_In in F as (F1 & F2 & F3).
    destruct (tok_res _ _ _ I Hi) as (r1 & H1 & H2 & H3 & H4 & H5 & H6 & H7 & ND).
    assert (r1 = r).
    { destruct (RI_res _ I r F1) as (_ & Tk & _). destruct (Tk i B1) as (t' & T1 & T2).
      apply (NoDup_map_inj _ _ _ _ (RI_ids _ I) H1 F1). congruence. }
    subst r1.
    assert (Same : upd_res (r_id r) (fun r => r) (s_res s) = s_res s).
    { unfold upd_res. rewrite <- (map_id (s_res s)) at 2. apply map_ext. intros a. destruct (r_id a =? r_id r); auto. }
    rewrite <- Same. destruct (RI_res _ I r H1) as (_ & _ & Sh).
    apply rinv_update; cbn; auto; try lia.
    + reflexivity.
    + intros j t' Nj Hj E. destruct (RI_tok _ I j t' Hj) as (r1 & X1 & X2 & _ & X4 & X5 & X6 & X7).
      assert (r1 = r) by (apply (NoDup_map_inj _ _ _ _ (RI_ids _ I) X1 H1); congruence). subst r1. auto.
    + intros t' Ht. assert (t' = t) by congruence. subst. auto.
    + do 5 (split; [auto; fail|]). split; [discriminate|]. intros b X. injection X as <-.
      split; [auto|]. congruence.
  - (* convert ends *)
    destruct (s_tok s i) as [t|] eqn:Hi; [|discriminate].
    destruct (t_conv t) as [toex|] eqn:Cv; [|discriminate].
    destruct (tok_res _ _ _ I Hi) as (r & H1 & H2 & H3 & H4 & H5 & H6 & H7 & ND).
    destruct (RI_res _ I r H1) as (_ & _ & Sh).
    assert (Oth : forall j t', j <> i -> s_tok s j = Some t' -> t_rid t' = r_id r ->
      In j (r_toks r) /\ r_sh r = t_sh t' /\ (t_ok t' = true -> r_list r = LHeld) /\ (t_ok t' = false -> r_list r = LAdd)).
    { intros j t' Nj Hj E. destruct (RI_tok _ I j t' Hj) as (r1 & X1 & X2 & _ & X4 & X5 & X6 & X7).
      assert (r1 = r) by (apply (NoDup_map_inj _ _ _ _ (RI_ids _ I) X1 H1); congruence). subst r1. auto. }
    destruct (RI_conv _ I i t toex Hi Cv) as [Ok Cf]. specialize (H6 Ok). rewrite H6 in Sh.
    destruct ok.
    + assert (One : r_toks r = [i]).
      { destruct toex.
        - cbn in A. exact (A t r Hi Cv H1 H2).
        - destruct Sh as [_ Sh]. destruct Sh as (i' & Sh); [rewrite H5; auto|].
          rewrite Sh in *. destruct H4 as [->|[]]. reflexivity. }
      injection H as <-. rewrite <- H2.
      apply rinv_update; cbn; auto; try lia.
      * reflexivity.
      * intros j t' Nj Hj E. exfalso. destruct (Oth j t' Nj Hj E) as (X & _).
        rewrite One in X. destruct X as [X|[]]. congruence.
      * intros t' Ht. assert (t' = t) by congruence. subst. auto.
      * do 5 (split; [auto; fail|]). split; discriminate.
      * rewrite H6, One. split; [discriminate|]. eauto.
    + injection H as <-.
      assert (Same : upd_res (r_id r) (fun r => r) (s_res s) = s_res s).
      { unfold upd_res. rewrite <- (map_id (s_res s)) at 2. apply map_ext. intros a. destruct (r_id a =? r_id r); auto. }
      rewrite <- Same.
      apply rinv_update; cbn; auto; try lia.
      * reflexivity.
      * intros j t' Nj Hj E. destruct (Oth j t' Nj Hj E) as (_ & X). auto.
      * intros t' Ht. assert (t' = t) by congruence. subst. auto.
      * do 5 (split; [auto; fail|]). split; discriminate.
      * rewrite H6. auto.
Qed.

Lemma rinv_init : rinv rinit.
Proof. split; cbn; try (intros; contradiction); try discriminate; constructor. Qed.

Lemma rreach_inv s : rreach alone s -> rinv s.
Proof. induction 1; [apply rinv_init|]. eapply rinv_step; eauto. Qed.
