(* C75: a call of the client library gives back the connection and the memory
   it took, and reports success only when the request was sent as announced
   and as the daemon reads it, the reply came in full and the results are
   stored. *)
Require Import List ZArith Lia Bool.
From Verif Require Import ClientCalls.
Import ListNotations.
Open Scope Z_scope.

(* ------------------------------------------------------------------ *)
(* Specification                                                       *)

Fixpoint memb (x : Z) (l : list Z) : bool :=
  match l with [] => false | y :: l => (x =? y) || memb x l end.
Fixpoint rem1 (x : Z) (l : list Z) : list Z :=
  match l with [] => [] | y :: l => if x =? y then l else y :: rem1 x l end.

(* The open descriptors after a run, None when one is used or closed which is
   not open. *)
Fixpoint fds_after (open : list Z) (t : list event) : option (list Z) :=
  match t with
  | [] => Some open
  | EConnect r :: t => fds_after (if r <? 0 then open else r :: open) t
  | ESendHdr fd _ _ :: t | ESend fd _ _ :: t | ERecvHdr fd _ _ :: t | ERecv fd _ _ :: t =>
      if memb fd open then fds_after open t else None
  | EClose fd :: t => if memb fd open then fds_after (rem1 fd open) t else None
  | _ :: t => fds_after open t
  end.

(* The memory a run owns, None when something is freed or handed out which it
   does not own. *)
Fixpoint bufs_after (own : list Z) (t : list event) : option (list Z) :=
  match t with
  | [] => Some own
  | EMalloc (Some b) :: t => bufs_after (b :: own) t
  | EFree b :: t | EOut (OBuf b) :: t =>
      if memb b own then bufs_after (rem1 b own) t else None
  | _ :: t => bufs_after own t
  end.

(* the descriptors the caller passes *)
Definition given (c : call) : list Z :=
  match c with
  | CAcquire sock _ | CInquire sock _ | CConvert sock _ | CRelease sock _ =>
      if sock =? -1 then [] else [sock]
  | CRestrict sock | CKillpath sock | CGetEvent sock | CEndEvent sock _ => [sock]
  | _ => []
  end.
(* the descriptors the caller has to close afterwards: sanlock_end_event takes
   the one it is given, three calls return one *)
Definition left_open (c : call) (rv : Z) : list Z :=
  match c with
  | CEndEvent _ true => []
  | CSendCommand | CRegister | CRegEvent _ => if rv <? 0 then [] else [rv]
  | _ => given c
  end.

Definition C75_connections_statement : Prop :=
  forall c t rv, exec (lib c) t rv -> fds_after (given c) t = Some (left_open c rv).

(* The pieces the handler of the daemon receives for a request of this kind,
   in bytes (cmd.c: 285, 329, 351 acquire; 675 release; 936 convert; 1000,
   1041 request; 1115 examine; 1150, 1174 set_lvb; 1203 get_lvb; 1312, 1361,
   1445 lockspaces; 1493 align; 1541 read_lockspace; 1622, 1657
   read_resource; 1723, 1758 owners; 1827 write_lockspace; 1886, 1922
   write_resource; 1985, 1995 killpath; 2038, 2044 set_event; 2067, 2095,
   2128, 2135 index; 2903 get_hosts; 2956, 2963 reg_event; 2987 end_event;
   3011 set_config): a lockspace has 1104 bytes, a resource 128, a disk 1040,
   the options 56, an event 32, an index 1104, an entry 64, the path and the
   arguments of a program 128. *)
Definition daemon_reads (c : call) : list Z :=
  match c with
  | CSendCommand | CRegister | CGetLockspaces _ | CGetEvent _ | CRestrict _ | CVersion _
  | CInquire _ _ => []
  | CLockspace | CWriteLockspace _ | CGetHosts _ _ | CSetConfig _ | CReadLockspace _
  | CEndEvent _ _ => [1104]
  | CAlign => [1040]
  | CFormatRindex _ | CRebuildRindex _ => [1104]
  | CReadResource r | CWriteResource r | CReadOwners r _ =>
      [128; 1040 * match r with Some (nd, _) => nd | None => 0 end]
  | CRegEvent _ | CSetEvent _ => [1104; 32]
  | CKillpath _ => [128; 128]
  | CAcquire _ rs => flat_map (fun nd => [128; 1040 * nd]) rs ++ [56]
  | CConvert _ _ => [128]
  | CRelease _ n => repeat 128 n
  | CRequest r => [128; 1040 * match r with Some nd => nd | None => 0 end]
  | CExamine ls _ => match ls with Some true => [1104] | _ => [128] end
  | CSetLvb _ n => [128; n]
  | CGetLvb _ _ => [128]
  | CUpdateRindex _ | CLookupRindex _ | CCreateResource _ | CDeleteResource _ => [1104; 64]
  end.

Definition sum (l : list Z) : Z := fold_right Z.add 0 l.

(* the pieces of data sent, with the answers *)
Definition pieces (t : list event) : list (Z * Z) :=
  flat_map (fun e => match e with ESend _ n r => [(n, r)] | _ => [] end) t.
(* the structures received after the header, with the answers *)
Definition recvs (t : list event) : list (Z * got) :=
  flat_map (fun e => match e with ERecv _ n g => [(n, g)] | _ => [] end) t.
Definition outs (t : list event) : list out :=
  flat_map (fun e => match e with EOut o => [o] | _ => [] end) t.
Definition replies (t : list event) : list (got * hdr) :=
  flat_map (fun e => match e with ERecvHdr _ g h => [(g, h)] | _ => [] end) t.

(* a header was taken by the system, announcing the pieces which follow it;
   these are the ones the daemon reads *)
Definition sent_as_read (c : call) (t : list event) : Prop :=
  exists t1 fd t2,
    t = t1 ++ ESendHdr fd (32 + sum (daemon_reads c)) 0 :: t2 /\
    pieces t2 = map (fun n => (n, 0)) (daemon_reads c).

Definition C75_request_statement : Prop :=
  forall c t rv, exec (lib c) t rv -> 0 <= rv ->
    (forall fd, c <> CGetEvent fd) ->
    0 <= sum (daemon_reads c) < 2 ^ 31 ->
    sent_as_read c t.

(* the result field as an int *)
Definition int (x : Z) : Z :=
  let y := x mod 2 ^ 32 in if y <? 2 ^ 31 then y else y - 2 ^ 32.

(* what a call receives after the header of the reply, when the result is no
   error: as many structures as the header says *)
Definition reply_reads (c : call) (h : hdr) : list Z :=
  match c with
  | CGetLockspaces true => repeat 1104 (Z.to_nat (int (h_data2 h)))
  | CGetHosts _ true => repeat 32 (Z.to_nat (int (h_data2 h)))
  | CReadLockspace _ => [1104]
  | CReadResource _ => [128]
  | CReadOwners _ true => 128 :: repeat 32 (Z.to_nat (int (h_data2 h)))
  | CReadOwners _ false => [128]
  | CInquire _ _ | CGetLvb _ _ =>
      if int (h_length h - 32) =? 0 then [] else [int (h_length h - 32)]
  | CUpdateRindex _ | CLookupRindex _ | CCreateResource _ | CDeleteResource _ => [64]
  | _ => []
  end.
(* what it stores *)
Definition stores (c : call) (h : hdr) (b : Z) : list out :=
  let count := OCount (int (h_data2 h)) in
  match c with
  | CGetLockspaces want | CGetHosts _ want => count :: (if want then [OBuf b] else [])
  | CReadOwners _ want => OStruct :: count :: (if want then [OBuf b] else [])
  | CReadLockspace _ => [OStruct; OTimeout (h_data2 h)]
  | CReadResource _ | CUpdateRindex _ | CLookupRindex _ | CCreateResource _
  | CDeleteResource _ => [OStruct]
  | CVersion p => (if p then [OProto (h_version h)] else []) ++ [OVersion (h_data2 h)]
  | CInquire _ want =>
      OCount 0 :: (if int (h_length h - 32) =? 0 then []
                   else (if want then [OBuf b] else []) ++ [count])
  | CGetLvb _ _ => if int (h_length h - 32) =? 0 then [] else [OStruct]
  | _ => []
  end.
(* what it returns: the result of the daemon, 0, or a descriptor *)
Definition returns (c : call) (h : hdr) (rv : Z) : Prop :=
  match c with
  | CRegEvent _ => 0 <= rv
  | CEndEvent _ _ | CVersion _ | CReadOwners _ _ | CUpdateRindex _ | CLookupRindex _
  | CCreateResource _ | CDeleteResource _ => rv = 0
  | _ => rv = int (h_data h)
  end.

Definition no_reply (c : call) : Prop :=
  match c with CSendCommand | CRegister | CGetEvent _ => True | _ => False end.

Definition reply_in_full (c : call) (t : list event) (rv : Z) : Prop :=
  exists h b,
    replies t = [(RGot 32, h)] /\ 0 <= int (h_data h) /\
    recvs t = map (fun n => (n, RGot n)) (reply_reads c h) /\
    outs t = stores c h b /\ returns c h rv.

Definition C75_reply_statement : Prop :=
  forall c t rv, exec (lib c) t rv -> 0 <= rv -> ~ no_reply c -> reply_in_full c t rv.

(* ------------------------------------------------------------------ *)
(* Proof                                                               *)

Fixpoint wp (p : prog) (Q : list event -> Z -> Prop) : Prop :=
  match p with
  | Ret rv => Q [] rv
  | Connect k => forall r, wp (k r) (fun t rv => Q (EConnect r :: t) rv)
  | SendHdr fd n k => forall r, send_answer r ->
      wp (k r) (fun t rv => Q (ESendHdr fd (u32 (S_HDR + n)) r :: t) rv)
  | Send fd n k => forall r, send_answer r ->
      wp (k r) (fun t rv => Q (ESend fd n r :: t) rv)
  | RecvHdr fd k => forall g h, recv_answer S_HDR g ->
      wp (k g h) (fun t rv => Q (ERecvHdr fd g h :: t) rv)
  | Recv fd n k => forall g, recv_answer n g ->
      wp (k g) (fun t rv => Q (ERecv fd n g :: t) rv)
  | Malloc k => forall b, wp (k b) (fun t rv => Q (EMalloc b :: t) rv)
  | Free b k => wp k (fun t rv => Q (EFree b :: t) rv)
  | Close fd k => wp k (fun t rv => Q (EClose fd :: t) rv)
  | Out o k => wp k (fun t rv => Q (EOut o :: t) rv)
  end.

Lemma wp_exec p t rv : exec p t rv -> forall Q, wp p Q -> Q t rv.
Proof. induction 1; cbn; intros Q W; auto; apply (IHexec _ (W _)) || apply (IHexec _ (W _ H)) || apply (IHexec _ (W _ _ H)) || apply (IHexec _ W). Qed.

Lemma wp_mono p : forall Q Q' : list event -> Z -> Prop,
  (forall t rv, Q t rv -> Q' t rv) -> wp p Q -> wp p Q'.
Proof.
  induction p; cbn; intros Q Q' M W; intros; eauto.
  all: try (eapply H; [ intros t0 rv0; apply M | apply W; assumption ]).
  all: eapply IHp; [ | exact W ]; intros t0 rv0; apply M.
Qed.

Definition bad (len : Z) (g : got) : Prop := recv_answer len g /\ g <> RGot len.
Definition bad_rv (g : got) : Z := match g with RErr e => - e | RGot _ => -1 end.

Lemma wp_recv_items n fd len fail k : forall Q,
  wp k (fun t rv => Q (repeat (ERecv fd len (RGot len)) n ++ t) rv) ->
  (forall i g, (i < n)%nat -> bad len g ->
     wp (fail (bad_rv g)) (fun t rv => Q (repeat (ERecv fd len (RGot len)) i ++ ERecv fd len g :: t) rv)) ->
  wp (recv_items n fd len fail k) Q.
Proof.
  induction n as [|n IH]; intros Q K F; cbn [recv_items]; [ exact K | ].
  unfold recv_struct. cbn [wp]. intros g A. destruct g as [e|m].
  - apply (F 0%nat (RErr e)); [ lia | split; [ exact A | discriminate ] ].
  - destruct (m =? len) eqn:E.
    + apply Z.eqb_eq in E; subst m. apply IH; [ exact K | ].
      intros i g Hi B. apply (F (S i) g); [ lia | exact B ].
    + apply Z.eqb_neq in E.
      apply (F 0%nat (RGot m)); [ lia | split; [ exact A | congruence ] ].
Qed.

Lemma wp_send_items n fd len fail k : forall Q,
  wp k (fun t rv => Q (repeat (ESend fd len 0) n ++ t) rv) ->
  (forall i r, (i < n)%nat -> r < 0 ->
     wp (fail r) (fun t rv => Q (repeat (ESend fd len 0) i ++ ESend fd len r :: t) rv)) ->
  wp (send_items n fd len fail k) Q.
Proof.
  induction n as [|n IH]; intros Q K F; cbn [send_items]; [ exact K | ].
  unfold send_struct. cbn [wp]. intros r A. unfold send_answer in A.
  destruct (r <? 0) eqn:E.
  - apply Z.ltb_lt in E. apply (F 0%nat r); lia || assumption.
  - apply Z.ltb_ge in E. assert (r = 0) by lia. subst r. apply IH; [ exact K | ].
    intros i r Hi B. apply (F (S i) r); [ lia | exact B ].
Qed.

Definition res_events (fd : Z) (rs : list Z) : list event :=
  flat_map (fun nd => [ESend fd S_RES 0; ESend fd (S_DISK * nd) 0]) rs.
Definition res_stop (fd : Z) (t : list event) : Prop :=
  exists rs n r, r < 0 /\
   (t = res_events fd rs ++ [ESend fd S_RES r] \/
    t = res_events fd rs ++ [ESend fd S_RES 0; ESend fd n r]).

Lemma wp_send_resources rs fd fail k : forall Q,
  wp k (fun t rv => Q (res_events fd rs ++ t) rv) ->
  (forall p, res_stop fd p -> wp (fail (-1)) (fun t rv => Q (p ++ t) rv)) ->
  wp (send_resources rs fd fail k) Q.
Proof.
  induction rs as [|nd rs IH]; intros Q K F; cbn [send_resources]; [ exact K | ].
  unfold send_struct at 1. cbn [wp]. intros r A. unfold send_answer in A.
  destruct (r <? 0) eqn:E.
  - apply Z.ltb_lt in E. apply (F [ESend fd S_RES r]).
    exists [], 0, r. split; [ exact E | left; reflexivity ].
  - apply Z.ltb_ge in E. assert (r = 0) by lia. subst r.
    unfold send_struct. cbn [wp]. intros r A2. unfold send_answer in A2.
    destruct (r <? 0) eqn:E2.
    + apply Z.ltb_lt in E2.
      apply (F [ESend fd S_RES 0; ESend fd (S_DISK * nd) r]).
      exists [], (S_DISK * nd), r. split; [ exact E2 | right; reflexivity ].
    + apply Z.ltb_ge in E2. assert (r = 0) by lia. subst r. apply IH.
      * exact K.
      * intros p (rs' & n & r & R & [P|P]); subst p.
        { apply (F (ESend fd S_RES 0 :: ESend fd (S_DISK * nd) 0 :: res_events fd rs' ++ [ESend fd S_RES r])).
          exists (nd :: rs'), n, r. split; [ exact R | left; reflexivity ]. }
        { apply (F (ESend fd S_RES 0 :: ESend fd (S_DISK * nd) 0 :: res_events fd rs' ++ [ESend fd S_RES 0; ESend fd n r])).
          exists (nd :: rs'), n, r. split; [ exact R | right; reflexivity ]. }
Qed.

(* Descriptors over the events of the loops *)
Lemma fds_uses o p t :
  (forall e, In e p -> exists fd, memb fd o = true /\
     ((exists n r, e = ESend fd n r) \/ (exists n g, e = ERecv fd n g))) ->
  fds_after o (p ++ t) = fds_after o t.
Proof.
  induction p as [|e p IH]; intros H; [ reflexivity | ].
  destruct (H e (or_introl eq_refl)) as (fd & M & [(n & r & ->)|(n & r & ->)]);
    cbn [app fds_after]; rewrite M; apply IH; intros e' I; apply H; right; exact I.
Qed.
Lemma fds_recvs o fd n g i t : memb fd o = true ->
  fds_after o (repeat (ERecv fd n g) i ++ t) = fds_after o t.
Proof.
  intros M. apply fds_uses. intros e I. apply repeat_spec in I. subst e. exists fd; eauto.
Qed.
Lemma fds_sends o fd n r i t : memb fd o = true ->
  fds_after o (repeat (ESend fd n r) i ++ t) = fds_after o t.
Proof.
  intros M. apply fds_uses. intros e I. apply repeat_spec in I. subst e. exists fd; eauto.
Qed.
Lemma fds_res o fd rs t : memb fd o = true ->
  fds_after o (res_events fd rs ++ t) = fds_after o t.
Proof.
  intros M. apply fds_uses. intros e I. apply in_flat_map in I.
  destruct I as (nd & _ & [<-|[<-|[]]]); exists fd; eauto.
Qed.
Lemma fds_stop o fd p t : memb fd o = true -> res_stop fd p ->
  fds_after o (p ++ t) = fds_after o t.
Proof.
  intros M (rs & n & r & _ & [->| ->]); rewrite <- app_assoc, fds_res by exact M;
    cbn [app fds_after]; rewrite !M; reflexivity.
Qed.

Lemma memb_hd x l : memb x (x :: l) = true.
Proof. cbn. rewrite Z.eqb_refl. reflexivity. Qed.
Lemma rem1_hd x l : rem1 x (x :: l) = l.
Proof. cbn. rewrite Z.eqb_refl. reflexivity. Qed.

Definition leaky (c : call) : bool :=
  match c with
  | CAcquire sock _ | CInquire sock _ => sock =? -1
  | CSetLvb _ _ | CGetLvb _ _ => true
  | _ => false
  end.
(* some header could not be sent *)
Definition header_failed (t : list event) : bool :=
  existsb (fun e => match e with ESendHdr _ _ r => r <? 0 | _ => false end) t.

Ltac opened :=
  cbn [lib]; unfold send_command, get_lockspaces, get_hosts, set_config,
    read_lockspace, read_resource, write_resource, read_owners, reg_event, end_event,
    set_event, get_event, restrict, version, killpath, acquire, inquire, convert, release,
    request, examine, set_lvb, get_lvb, rindex_call, simple_call, checked, recv_list, open_call, with_conn,
    finish, recv_header, recv_result, recv_struct, send_struct, closing; cbv zeta.
Ltac stepw :=
  match goal with
  | |- wp (recv_items _ _ _ _ _) _ => apply wp_recv_items; [ | intros ? ? ? [? ?] ]
  | |- wp (send_items _ _ _ _ _) _ => apply wp_send_items; [ | intros ]
  | |- wp (send_resources _ _ _ _) _ => apply wp_send_resources; [ | intros ]
  | |- wp (if ?b then _ else _) _ => destruct b eqn:?
  | |- wp (match ?g with RErr _ => _ | RGot _ => _ end) _ => destruct g
  | |- wp (match ?g with Some _ => _ | None => _ end) _ => destruct g
  | |- wp _ _ => progress cbn [wp]
  | |- forall r : Z, send_answer r -> _ => intros ? ?
  | |- forall (g : got) (h : hdr), _ => intros ? ? ?
  | |- forall g : got, _ => intros ? ?
  | |- forall b : option Z, _ => intros ?
  | |- forall r : Z, wp _ _ => intros ?
  end.

Lemma failed_app p t : header_failed (p ++ t) = header_failed p || header_failed t.
Proof. apply existsb_app. Qed.
Lemma failed_repeat e n : header_failed [e] = false -> header_failed (repeat e n) = false.
Proof. intros H. induction n as [|n IH]; [ reflexivity | ]. cbn in *. rewrite orb_false_r in H. rewrite H. exact IH. Qed.
Lemma failed_res fd rs : header_failed (res_events fd rs) = false.
Proof. induction rs as [|nd rs IH]; [ reflexivity | exact IH ]. Qed.
Lemma failed_stop fd p : res_stop fd p -> header_failed p = false.
Proof.
  intros (rs & n & r & _ & [->| ->]); rewrite failed_app, failed_res; reflexivity.
Qed.
Ltac hfsolve :=
  repeat (first
    [ rewrite failed_app | rewrite failed_repeat by reflexivity | rewrite failed_res
    | match goal with H : res_stop ?fd ?p |- context [header_failed ?p] => rewrite (failed_stop fd p H) end
    | match goal with
      | H : ?x = true |- context [?x || _] => rewrite H
      | H : ?x = false |- context [?x || _] => rewrite H
      end ]; cbn [header_failed existsb orb]);
  cbn [header_failed existsb orb].

Ltac fdsolve :=
  cbn [fds_after app given left_open];
  repeat (first
    [ rewrite memb_hd | rewrite rem1_hd
    | rewrite fds_recvs by (apply memb_hd) | rewrite fds_sends by (apply memb_hd)
    | rewrite fds_res by (apply memb_hd) | match goal with H : res_stop ?fd ?p |- context [?p ++ _] => rewrite (fds_stop _ fd p) by (apply memb_hd || exact H) end
    | match goal with
      | H : ?x = true |- context [if ?x then _ else _] => rewrite H
      | H : ?x = false |- context [if ?x then _ else _] => rewrite H
      end ]; cbn [fds_after app given left_open]);
  try reflexivity.

Theorem C75_connections_partial c t rv :
  exec (lib c) t rv -> leaky c && header_failed t = false ->
  fds_after (given c) t = Some (left_open c rv).
Proof.
  intros X. pattern t, rv. eapply wp_exec; [ exact X | ]. clear.
  destruct c; opened; repeat stepw; intros L; fdsolve.
  { cbn in H2. replace (- e <? 0) with true by (symmetry; apply Z.ltb_lt; lia). reflexivity. }
  all: exfalso; revert L; cbn [leaky header_failed existsb andb orb];
    repeat match goal with
    | H : ?x = true |- context [?x] => rewrite H
    | H : ?x = false |- context [?x] => rewrite H
    end; discriminate.
Qed.

(* For the four calls which may leak: they do, whenever the header fails. *)
Theorem C75_leak c t rv :
  exec (lib c) t rv -> leaky c && header_failed t = true ->
  exists fd, fds_after (given c) t = Some [fd] /\ rv < 0.
Proof.
  intros X. pattern t, rv. eapply wp_exec; [ exact X | ]. clear.
  destruct c; opened; repeat stepw; intros L; try discriminate L;
    cbn [leaky] in L; revert L;
    repeat match goal with
    | H : (?x =? ?y) = _ |- context [?x =? ?y] => rewrite H
    end; cbn [andb]; try discriminate; intros L.
  all: fdsolve.
  all: try (eexists; split; [ reflexivity | apply Z.ltb_lt; assumption ]).
  all: exfalso; revert L; cbn [header_failed existsb orb app]; hfsolve; cbn [app].
  all: repeat (match goal with
    | H : ?x = true |- context [?x] => rewrite H
    | H : ?x = false |- context [?x] => rewrite H
    end; cbn [orb]).
  all: try discriminate.
  all: rewrite ?andb_false_r; discriminate.
Qed.

(* Memory over the events of the loops *)
Lemma bufs_skip o p t :
  (forall e, In e p -> (exists fd n r, e = ESend fd n r) \/ (exists fd n g, e = ERecv fd n g)) ->
  bufs_after o (p ++ t) = bufs_after o t.
Proof.
  induction p as [|e p IH]; intros H; [ reflexivity | ].
  destruct (H e (or_introl eq_refl)) as [(fd & n & r & ->)|(fd & n & g & ->)];
    cbn [app bufs_after]; apply IH; intros e' I; apply H; right; exact I.
Qed.
Lemma bufs_recvs o fd n g i t : bufs_after o (repeat (ERecv fd n g) i ++ t) = bufs_after o t.
Proof. apply bufs_skip. intros e I. apply repeat_spec in I. right. eauto. Qed.
Lemma bufs_sends o fd n g i t : bufs_after o (repeat (ESend fd n g) i ++ t) = bufs_after o t.
Proof. apply bufs_skip. intros e I. apply repeat_spec in I. left. eauto. Qed.
Lemma bufs_res o fd rs t : bufs_after o (res_events fd rs ++ t) = bufs_after o t.
Proof.
  apply bufs_skip. intros e I. apply in_flat_map in I.
  destruct I as (nd & _ & [<-|[<-|[]]]); left; eauto.
Qed.
Lemma bufs_stop o fd p t : res_stop fd p -> bufs_after o (p ++ t) = bufs_after o t.
Proof.
  intros (rs & n & r & _ & [->| ->]); rewrite <- app_assoc, bufs_res; reflexivity.
Qed.

(* Memory that is allocated is freed or handed to the caller, once. *)
Theorem C75_memory c t rv : exec (lib c) t rv -> bufs_after [] t = Some [].
Proof.
  intros X. pattern t, rv. eapply wp_exec; [ exact X | ]. clear.
  destruct c; opened; repeat stepw; cbn [bufs_after app];
  repeat (first
    [ rewrite memb_hd | rewrite rem1_hd | rewrite bufs_recvs | rewrite bufs_sends | rewrite bufs_res
    | match goal with H : res_stop ?fd ?p |- context [?p ++ _] => rewrite (bufs_stop _ fd p) by exact H end ];
    cbn [bufs_after app]); reflexivity.
Qed.

(* The events of the loops, seen from the specification *)
Lemma pieces_app p t : pieces (p ++ t) = pieces p ++ pieces t.
Proof. apply flat_map_app. Qed.
Lemma recvs_app p t : recvs (p ++ t) = recvs p ++ recvs t.
Proof. apply flat_map_app. Qed.
Lemma outs_app p t : outs (p ++ t) = outs p ++ outs t.
Proof. apply flat_map_app. Qed.
Lemma replies_app p t : replies (p ++ t) = replies p ++ replies t.
Proof. apply flat_map_app. Qed.
Lemma pieces_cons e t : pieces (e :: t) = (match e with ESend _ n r => [(n, r)] | _ => [] end) ++ pieces t.
Proof. reflexivity. Qed.
Lemma recvs_cons e t : recvs (e :: t) = (match e with ERecv _ n g => [(n, g)] | _ => [] end) ++ recvs t.
Proof. reflexivity. Qed.
Lemma outs_cons e t : outs (e :: t) = (match e with EOut o => [o] | _ => [] end) ++ outs t.
Proof. reflexivity. Qed.
Lemma replies_cons e t : replies (e :: t) = (match e with ERecvHdr _ g h => [(g, h)] | _ => [] end) ++ replies t.
Proof. reflexivity. Qed.
Lemma of_recvs fd n g i :
  pieces (repeat (ERecv fd n g) i) = [] /\ recvs (repeat (ERecv fd n g) i) = repeat (n, g) i /\
  outs (repeat (ERecv fd n g) i) = [] /\ replies (repeat (ERecv fd n g) i) = [].
Proof. induction i as [|i (A & B & C & D)]; cbn; auto. unfold recvs in B. rewrite B. auto. Qed.
Lemma of_sends fd n g i :
  pieces (repeat (ESend fd n g) i) = repeat (n, g) i /\ recvs (repeat (ESend fd n g) i) = [] /\
  outs (repeat (ESend fd n g) i) = [] /\ replies (repeat (ESend fd n g) i) = [].
Proof. induction i as [|i (A & B & C & D)]; cbn; auto. unfold pieces in A. rewrite A. auto. Qed.
Lemma of_res fd rs :
  pieces (res_events fd rs) = map (fun n => (n, 0)) (flat_map (fun nd => [128; 1040 * nd]) rs) /\
  recvs (res_events fd rs) = [] /\ outs (res_events fd rs) = [] /\ replies (res_events fd rs) = [].
Proof.
  induction rs as [|nd rs (A & B & C & D)]; [ auto | ].
  change (res_events fd (nd :: rs)) with (ESend fd S_RES 0 :: ESend fd (S_DISK * nd) 0 :: res_events fd rs).
  cbn [flat_map map app]. rewrite !pieces_cons, !recvs_cons, !outs_cons, !replies_cons, A, B, C, D. auto.
Qed.
Lemma of_stop fd p : res_stop fd p -> recvs p = [] /\ outs p = [] /\ replies p = [].
Proof.
  intros (rs & n & r & _ & [->| ->]); rewrite recvs_app, outs_app, replies_app;
    destruct (of_res fd rs) as (_ & A & B & C); rewrite A, B, C; auto.
Qed.
Lemma pieces_of_recvs fd n g i : pieces (repeat (ERecv fd n g) i) = []. Proof. apply of_recvs. Qed.
Lemma recvs_of_recvs fd n g i : recvs (repeat (ERecv fd n g) i) = repeat (n, g) i. Proof. apply of_recvs. Qed.
Lemma outs_of_recvs fd n g i : outs (repeat (ERecv fd n g) i) = []. Proof. apply of_recvs. Qed.
Lemma replies_of_recvs fd n g i : replies (repeat (ERecv fd n g) i) = []. Proof. apply of_recvs. Qed.
Lemma pieces_of_sends fd n g i : pieces (repeat (ESend fd n g) i) = repeat (n, g) i. Proof. apply of_sends. Qed.
Lemma recvs_of_sends fd n g i : recvs (repeat (ESend fd n g) i) = []. Proof. apply of_sends. Qed.
Lemma outs_of_sends fd n g i : outs (repeat (ESend fd n g) i) = []. Proof. apply of_sends. Qed.
Lemma replies_of_sends fd n g i : replies (repeat (ESend fd n g) i) = []. Proof. apply of_sends. Qed.
Lemma pieces_of_res fd rs :
  pieces (res_events fd rs) = map (fun n => (n, 0)) (flat_map (fun nd => [128; 1040 * nd]) rs).
Proof. apply of_res. Qed.
Lemma recvs_of_res fd rs : recvs (res_events fd rs) = []. Proof. apply of_res. Qed.
Lemma outs_of_res fd rs : outs (res_events fd rs) = []. Proof. apply of_res. Qed.
Lemma replies_of_res fd rs : replies (res_events fd rs) = []. Proof. apply of_res. Qed.
Lemma recvs_of_stop fd p : res_stop fd p -> recvs p = []. Proof. apply of_stop. Qed.
Lemma outs_of_stop fd p : res_stop fd p -> outs p = []. Proof. apply of_stop. Qed.
Lemma replies_of_stop fd p : res_stop fd p -> replies p = []. Proof. apply of_stop. Qed.

Ltac spec_rw :=
  repeat (first
    [ rewrite pieces_app | rewrite recvs_app | rewrite outs_app | rewrite replies_app
    | rewrite pieces_cons | rewrite recvs_cons | rewrite outs_cons | rewrite replies_cons
    | rewrite pieces_of_recvs | rewrite recvs_of_recvs | rewrite outs_of_recvs | rewrite replies_of_recvs
    | rewrite pieces_of_sends | rewrite recvs_of_sends | rewrite outs_of_sends | rewrite replies_of_sends
    | rewrite pieces_of_res | rewrite recvs_of_res | rewrite outs_of_res | rewrite replies_of_res
    | match goal with H : res_stop ?fd ?p |- context [recvs ?p] => rewrite (recvs_of_stop fd p H) end
    | match goal with H : res_stop ?fd ?p |- context [outs ?p] => rewrite (outs_of_stop fd p H) end
    | match goal with H : res_stop ?fd ?p |- context [replies ?p] => rewrite (replies_of_stop fd p H) end ];
    cbn [app]).

(* A list is handed out only with success, or with ENOSPC for a list that was
   cut. *)
Theorem C75_list_only_with_success c t rv b :
  exec (lib c) t rv -> (forall sock want, c <> CInquire sock want) ->
  In (OBuf b) (outs t) -> 0 <= rv \/ rv = - ENOSPC.
Proof.
  intros X. pattern t, rv. eapply wp_exec; [ exact X | ]. clear.
  destruct c; opened; repeat stepw; intros N; try (exfalso; eapply N; reflexivity);
    spec_rw; cbn [In app pieces recvs outs replies flat_map]; intros I.
  all: try (exfalso; intuition congruence).
  all: try (left; lia).
  all: match goal with H : _ && _ = false |- _ => revert H end; clear;
    rewrite andb_false_iff, negb_false_iff, Z.ltb_ge, Z.eqb_eq; tauto.
Qed.

Lemma bad_rv_neg len g : recv_answer len g -> bad_rv g < 0.
Proof. destruct g; cbn; lia. Qed.
Lemma answer0 r : send_answer r -> (r <? 0) = false -> r = 0.
Proof. unfold send_answer. rewrite Z.ltb_ge. lia. Qed.
Ltac zeros :=
  repeat match goal with
  | H : send_answer ?r, E : (?r <? 0) = false |- _ =>
      assert (r = 0) by (exact (answer0 r H E)); subst r; clear H
  end.

Lemma sent_intro c fd n t1 t2 :
  n = sum (daemon_reads c) -> 0 <= sum (daemon_reads c) < 2 ^ 31 ->
  pieces t2 = map (fun n => (n, 0)) (daemon_reads c) ->
  sent_as_read c (t1 ++ ESendHdr fd (u32 (S_HDR + n)) 0 :: t2).
Proof.
  intros -> B P. exists t1, fd, t2. split; [ | exact P ].
  unfold u32, S_HDR. rewrite Z.mod_small by lia. reflexivity.
Qed.
Lemma sum_resources rs :
  sum (flat_map (fun nd => [128; 1040 * nd]) rs ++ [56]) = resources_len rs + S_OPT.
Proof.
  unfold resources_len, S_RES, S_DISK, S_OPT.
  induction rs as [|nd rs IH]; [ reflexivity | ]. cbn [flat_map app sum fold_right].
  cbn [flat_map app sum fold_right] in IH. change (fold_right Z.add 0) with sum in *. lia.
Qed.
Lemma sum_repeat x n : sum (repeat x n) = Z.of_nat n * x.
Proof. induction n as [|n IH]; [ reflexivity | ]. cbn [repeat sum fold_right]. change (fold_right Z.add 0) with sum. lia. Qed.
Lemma map_repeat {A B} (f : A -> B) x n : map f (repeat x n) = repeat (f x) n.
Proof. induction n; cbn; congruence. Qed.

Theorem C75_request_partial c t rv :
  exec (lib c) t rv -> 0 <= rv ->
  (forall fd, c <> CGetEvent fd) -> (forall ok, c <> CLookupRindex ok) ->
  0 <= sum (daemon_reads c) < 2 ^ 31 ->
  sent_as_read c t.
Proof.
  intros X. pattern t, rv. eapply wp_exec; [ exact X | ]. clear.
  destruct c; opened; repeat stepw; intros R N1 N2 B;
    try (exfalso; eapply N1; reflexivity); try (exfalso; eapply N2; reflexivity);
    try (exfalso; revert R; cbn; lia);
    try (exfalso; revert R;
         match goal with H : recv_answer _ ?g |- 0 <= bad_rv ?g -> _ => pose proof (bad_rv_neg _ _ H); lia end);
    try (exfalso; match goal with H : (?r <? 0) = true |- _ => apply Z.ltb_lt in H; lia end);
    try (exfalso; match goal with H : recv_answer _ (RErr ?e) |- _ => cbn in H; lia end);
    zeros;
    ((eapply (sent_intro _ _ _ []) || eapply (sent_intro _ _ _ [_]) ||
     eapply (sent_intro _ _ _ [_; _]) || eapply (sent_intro _ _ _ [_; _; _]));
    [ | exact B | spec_rw; cbn [app] ]).
  all: try reflexivity.
  all: cbn [daemon_reads].
  all: try (symmetry; apply sum_resources).
  all: try (rewrite map_app; reflexivity).
  all: try (rewrite sum_repeat; reflexivity).
  all: try (rewrite map_repeat, app_nil_r; reflexivity).
  all: unfold disks_of, S_RES, S_DISK; cbn [sum fold_right]; try destruct r as [[? ?]|]; lia.
Qed.

(* a list could not be allocated *)
Definition no_memory (t : list event) : bool :=
  existsb (fun e => match e with EMalloc None => true | _ => false end) t.

Theorem C75_reply_partial c t rv :
  exec (lib c) t rv -> 0 <= rv -> ~ no_reply c -> no_memory t = false -> reply_in_full c t rv.
Proof.
  intros X. pattern t, rv. eapply wp_exec; [ exact X | ]. clear.
  destruct c; opened; repeat stepw; intros R N M;
    try (exfalso; apply N; exact I);
    try (exfalso; discriminate M);
    try (exfalso; revert R; cbn; lia);
    try (exfalso; revert R;
         match goal with H : recv_answer _ ?g |- 0 <= bad_rv ?g -> _ => pose proof (bad_rv_neg _ _ H); lia end);
    try (exfalso; match goal with H : (?r <? 0) = true |- _ => apply Z.ltb_lt in H; lia end);
    try (exfalso; match goal with H : recv_answer _ (RErr ?e) |- _ => cbn in H; lia end).
  all: repeat match goal with H : (_ =? _) = true |- _ => apply Z.eqb_eq in H; subst end.
  all: try match goal with
    | H : recv_answer _ _ |- reply_in_full _ ?t _ =>
      match t with
      | context [ERecvHdr _ _ ?h] =>
        match t with
        | context [EMalloc (Some ?b)] => exists h, b
        | _ => exists h, 0
        end
      end end.
  all: spec_rw; cbn [app pieces recvs outs replies flat_map reply_reads stores returns no_reply].
  all: change int with i32; change 32 with S_HDR.
  all: repeat match goal with H : (_ <? _) = false |- _ => apply Z.ltb_ge in H end.
  all: repeat match goal with
    | H : (?x =? ?y) = ?b |- context [?x =? ?y] => rewrite H
    | H : ?x = 0 |- context [?x =? 0] => rewrite H
    | H : negb ?w = _ |- _ => destruct w; try discriminate H; clear H
    end.
  all: rewrite ?app_nil_r, ?map_cons, ?map_repeat.
  all: repeat split; try reflexivity; try assumption.
Qed.

(* Something went wrong on the way: no connection, data not taken or not
   received in full, no memory. *)
Definition full (n : Z) (g : got) : bool := match g with RGot m => m =? n | RErr _ => false end.
Definition broken (e : event) : bool :=
  match e with
  | EConnect r | ESendHdr _ _ r | ESend _ _ r => r <? 0
  | ERecvHdr _ g _ => negb (full 32 g)
  | ERecv _ n g => negb (full n g)
  | EMalloc None => true
  | _ => false
  end.

Lemma broken_in e t : In e t -> broken e = true -> existsb broken t = true.
Proof. intros I B. apply existsb_exists. exists e. auto. Qed.

(* A call fails only because of that, or because the arguments are refused
   before anything is done, or with the error of the daemon. *)
Theorem C75_failure c t rv :
  exec (lib c) t rv -> rv < 0 ->
  existsb broken t = true \/ (t = [] /\ rv = -22) \/
  exists h, replies t = [(RGot 32, h)] /\ int (h_data h) = rv.
Proof.
  intros X. pattern t, rv. eapply wp_exec; [ exact X | ]. clear.
  assert (BR : forall n g, bad n g -> negb (full n g) = true).
  { intros n g [A B]. destruct g as [e|m]; [ reflexivity | ]. cbn.
    destruct (Z.eqb_spec m n); [ congruence | reflexivity ]. }
  assert (BS : forall fd p, res_stop fd p -> existsb broken p = true).
  { intros fd p (rs & n & r & R & [->| ->]); rewrite existsb_app; cbn [existsb broken];
      replace (r <? 0) with true by (symmetry; apply Z.ltb_lt; exact R); rewrite !orb_true_r; reflexivity. }
  destruct c; opened; repeat stepw; intros R; try (exfalso; lia).
  all: try (right; left; split; reflexivity).
  all: repeat match goal with H : (_ =? _) = true |- _ => apply Z.eqb_eq in H; subst end.
  all: try (right; right; eexists; split; [ spec_rw; reflexivity | reflexivity ]).
  all: try (left; cbn [existsb broken full negb]; change 32 with S_HDR;
    repeat (match goal with
      | H : ?x = true |- context [?x] => rewrite H
      | H : ?x = false |- context [?x] => rewrite H
      end; cbn [negb orb]); rewrite ?orb_true_r; reflexivity).
  all: left; cbn [existsb broken]; rewrite ?existsb_app; cbn [existsb broken].
  all: try match goal with
    | H : recv_answer ?n ?g, N : ?g <> RGot ?n |- _ => rewrite (BR n g (conj H N))
    | H : res_stop ?fd ?p |- _ => rewrite (BS fd p H)
    | H : ?r < 0 |- context [?r <? 0] => replace (r <? 0) with true by (symmetry; apply Z.ltb_lt; exact H)
    | H : (?r <? 0) = true |- context [?r <? 0] => rewrite H
    end.
  all: try (rewrite ?orb_true_r; reflexivity).
  all: cbn [full]; change 32 with S_HDR;
    match goal with H : (?n =? S_HDR) = false |- _ => rewrite H end; cbn [negb orb];
    rewrite ?orb_true_r; reflexivity.
Qed.

(* A call on the connection of the caller reads one reply, and all of it when
   the header tells its length as the daemon does: 32, or for an inquire at
   least that.  Otherwise the next call on this connection takes the rest of
   it for its own reply. *)
Definition on_callers (c : call) (sock : Z) : Prop :=
  match c with
  | CAcquire s _ | CInquire s _ | CConvert s _ | CRelease s _ => s = sock /\ sock <> -1
  | CRestrict s | CKillpath s => s = sock
  | _ => False
  end.
Definition announces (c : call) (h : hdr) : Prop :=
  match c with
  | CInquire _ _ => 32 <= h_length h < 2 ^ 31
  | _ => h_length h = 32
  end.
Definition lost (e : event) : bool :=   (* the connection itself failed *)
  match e with EMalloc None => false | _ => broken e end.
Definition bytes_read (t : list event) : Z := sum (map (fun x => 32) (replies t)) + sum (map fst (recvs t)).

Definition C75_consumed_statement : Prop :=
  forall c sock t rv h g, exec (lib c) t rv -> on_callers c sock ->
    replies t = [(g, h)] -> announces c h -> existsb lost t = false ->
    bytes_read t = h_length h.

Theorem C75_consumed_partial c sock t rv h g :
  exec (lib c) t rv -> on_callers c sock ->
  replies t = [(g, h)] -> announces c h -> existsb broken t = false ->
  bytes_read t = h_length h.
Proof.
  intros X. pattern t, rv. eapply wp_exec; [ exact X | ]. clear.
  destruct c; cbn [on_callers]; opened; repeat stepw; intros O P A B; try (destruct O; fail); try (destruct O; subst; discriminate).
  all: revert P; spec_rw; cbn [app replies flat_map]; intros P; try discriminate P; injection P as <- <-.
  all: cbn [announces] in A; unfold bytes_read; spec_rw; cbn [app recvs replies flat_map map sum fold_right fst].
  all: try (rewrite A; reflexivity).
  all: assert (S : i32 (h_length h0 - S_HDR) = h_length h0 - 32)
    by (unfold i32, S_HDR; cbv zeta; rewrite Z.mod_small by lia;
        replace (h_length h0 - 32 <? 2 ^ 31) with true by (symmetry; apply Z.ltb_lt; lia); reflexivity).
  all: rewrite ?S in *.
  all: repeat match goal with H : (_ =? _) = true |- _ => apply Z.eqb_eq in H; subst end.
  all: try (destruct O; congruence).
  all: try lia.
  all: exfalso; revert B; cbn [existsb broken full negb orb]; change 32 with S_HDR;
    repeat (match goal with
      | H : ?x = true |- context [?x] => rewrite H
      | H : ?x = false |- context [?x] => rewrite H
      end; cbn [negb orb]); rewrite ?orb_true_r; discriminate.
Qed.

(* client.c:104-121: success of send_data means that all bytes were taken, in
   order; after an error those taken are a beginning of them. *)
Theorem C75_send_data answers buf rv sent :
  send_loop answers buf = Some (rv, sent) ->
  (rv = 0 -> (forall e, In (SFail e) answers -> e <> 0) -> sent = buf) /\
  exists rest, buf = sent ++ rest.
Proof.
  revert buf rv sent. induction answers as [|a answers IH]; cbn [send_loop]; intros buf rv sent H; [ discriminate | ].
  destruct a as [n| |e].
  - destruct (Nat.ltb n (length buf)) eqn:L.
    +
      destruct (send_loop answers (skipn n buf)) as [[rv' sent']|] eqn:E; [ | discriminate ].
      injection H as <- <-. destruct (IH _ _ _ E) as (A & rest & R). split.
      * intros Z0 F. rewrite (A Z0); [ apply firstn_skipn | ]. intros e I. apply F. right. exact I.
      * exists rest. rewrite <- app_assoc, <- R. symmetry. apply firstn_skipn.
    + injection H as <- <-. split; [ reflexivity | exists []; symmetry; apply app_nil_r ].
  - destruct (IH _ _ _ H) as (A & R). split; [ | exact R ].
    intros Z0 F. apply A; [ exact Z0 | ]. intros e I. apply F. right. exact I.
  - injection H as <- <-. split; [ | exists buf; reflexivity ].
    intros Z0 F. exfalso. apply (F e); [ left; reflexivity | lia ].
Qed.

(* sanlock_get_event leaves the registered connection alone, and stores an
   event exactly when it returns 0. *)
Theorem C75_get_event fd t rv :
  exec (lib (CGetEvent fd)) t rv -> outs t = (if rv =? 0 then [OStruct] else []) /\ rv <= 0.
Proof.
  intros X. pattern t, rv. eapply wp_exec; [ exact X | ]. clear.
  opened; repeat stepw; cbn; split; try reflexivity; try lia.
  - cbn in H. replace (- e =? 0) with false by (symmetry; apply Z.eqb_neq; lia). reflexivity.
  - cbn in H. lia.
Qed.

(* ------------------------------------------------------------------ *)
(* Witnesses                                                           *)

(* sanlock_set_lvb whose header cannot be sent (EPIPE) leaves descriptor 5
   open *)
Theorem C75_connections_refuted : ~ C75_connections_statement.
Proof.
  intros S. specialize (S (CSetLvb true 8) [EConnect 5; ESendHdr 5 168 (-32)] (-32)).
  discriminate S. cbn [lib]. unfold set_lvb, checked. cbn [andb negb Z.eqb].
  apply xConnect. cbn. apply (xSendHdr 5 136 _ (-32)); [ unfold send_answer; lia | ]. cbn. apply xRet.
Qed.

(* sanlock_lookup_rindex announces 64 bytes more than it sends *)
Definition reply0 : hdr := Hdr 1 32 0 0.
Theorem C75_request_refuted : ~ C75_request_statement.
Proof.
  intros S.
  destruct (S (CLookupRindex true)
    [EConnect 5; ESendHdr 5 1264 0; ESend 5 1104 0; ESend 5 64 0; ERecvHdr 5 (RGot 32) reply0;
     ERecv 5 64 (RGot 64); EOut OStruct; EClose 5] 0) as (t1 & fd & t2 & E & _).
  - cbn [lib]. unfold rindex_call, checked, open_call. apply xConnect. cbn.
    apply (xSendHdr 5 1232 _ 0); [ unfold send_answer; lia | ]. cbn.
    apply (xSend 5 1104 _ 0); [ unfold send_answer; lia | ]. cbn.
    apply (xSend 5 64 _ 0); [ unfold send_answer; lia | ]. cbn.
    apply (xRecvHdr 5 _ (RGot 32) reply0); [ unfold recv_answer, S_HDR; lia | ]. cbn.
    apply (xRecv 5 64 _ (RGot 64)); [ unfold recv_answer, S_HDR; lia | ]. cbn. apply xOut, xClose, xRet.
  - lia.
  - discriminate.
  - cbn. lia.
  - assert (I : In (ESendHdr fd (32 + sum (daemon_reads (CLookupRindex true))) 0)
      (t1 ++ ESendHdr fd (32 + sum (daemon_reads (CLookupRindex true))) 0 :: t2))
      by (apply in_or_app; right; left; reflexivity).
    rewrite <- E in I. cbn in I. repeat (destruct I as [I|I]; [ discriminate I | ]). exact I.
Qed.

(* sanlock_get_hosts returns 0 and 3 hosts without storing a list when there
   is no memory for it *)
Theorem C75_reply_refuted : ~ C75_reply_statement.
Proof.
  intros S.
  destruct (S (CGetHosts true true)
    [EConnect 5; ESendHdr 5 1136 0; ESend 5 1104 0; ERecvHdr 5 (RGot 32) (Hdr 1 128 0 3);
     EOut (OCount 3); EMalloc None; EClose 5] 0) as (h & b & P & _ & R & _).
  - cbn [lib]. unfold get_hosts, checked, open_call. apply xConnect. cbn.
    apply (xSendHdr 5 1104 _ 0); [ unfold send_answer; lia | ]. cbn.
    apply (xSend 5 1104 _ 0); [ unfold send_answer; lia | ]. cbn.
    apply (xRecvHdr 5 _ (RGot 32) (Hdr 1 128 0 3)); [ unfold recv_answer, S_HDR; lia | ]. cbn.
    apply (xOut (OCount 3)). apply (xMalloc _ None). cbn. apply xClose, xRet.
  - lia.
  - intros [].
  - injection P as <-. discriminate R.
Qed.

(* sanlock_inquire on a registered connection leaves the state string, here
   16 bytes, in the connection when there is no memory for it *)
Theorem C75_consumed_refuted : ~ C75_consumed_statement.
Proof.
  intros S.
  specialize (S (CInquire 4 true) 4
    [EOut (OCount 0); ESendHdr 4 32 0; ERecvHdr 4 (RGot 32) (Hdr 1 48 0 1); EMalloc None] (-12)
    (Hdr 1 48 0 1) (RGot 32)).
  discriminate S.
  - cbn [lib]. unfold inquire, with_conn. apply xOut. cbn.
    apply (xSendHdr 4 0 _ 0); [ unfold send_answer; lia | ]. cbn.
    apply (xRecvHdr 4 _ (RGot 32) (Hdr 1 48 0 1)); [ unfold recv_answer, S_HDR; lia | ]. cbn.
    apply (xMalloc _ None). cbn. apply xRet.
  - cbn. lia.
  - reflexivity.
  - cbn. lia.
  - reflexivity.
Qed.

(* An acquire of two resources on a registered connection: the hypotheses of
   the theorems hold, and what they say of it. *)
Definition acquire_run : list event :=
  [ESendHdr 4 3464 0;
   ESend 4 128 0; ESend 4 1040 0; ESend 4 128 0; ESend 4 2080 0; ESend 4 56 0;
   ERecvHdr 4 (RGot 32) reply0].
Example C75_nonvacuous :
  exec (lib (CAcquire 4 [1; 2])) acquire_run 0 /\
  leaky (CAcquire 4 [1; 2]) && header_failed acquire_run = false /\
  fds_after [4] acquire_run = Some [4] /\
  sum (daemon_reads (CAcquire 4 [1; 2])) = 3432 /\
  sent_as_read (CAcquire 4 [1; 2]) acquire_run /\
  reply_in_full (CAcquire 4 [1; 2]) acquire_run 0 /\
  on_callers (CAcquire 4 [1; 2]) 4 /\ existsb broken acquire_run = false /\
  send_loop [STaken 2; SIntr; STaken 1] [1; 2; 3] = Some (0, [1; 2; 3]) /\
  leaky (CGetLvb true 8) = true /\ header_failed [EConnect 5; ESendHdr 5 160 (-32)] = true.
Proof.
  assert (X : exec (lib (CAcquire 4 [1; 2])) acquire_run 0).
  { cbn [lib]. unfold acquire, checked, with_conn. cbn [length forallb andb negb Z.eqb].
    apply (xSendHdr 4 3432 _ 0); [ unfold send_answer; lia | ]. cbn.
    apply (xSend 4 128 _ 0); [ unfold send_answer; lia | ]. cbn.
    apply (xSend 4 1040 _ 0); [ unfold send_answer; lia | ]. cbn.
    apply (xSend 4 128 _ 0); [ unfold send_answer; lia | ]. cbn.
    apply (xSend 4 2080 _ 0); [ unfold send_answer; lia | ]. cbn.
    apply (xSend 4 56 _ 0); [ unfold send_answer; lia | ]. cbn.
    apply (xRecvHdr 4 _ (RGot 32) reply0); [ unfold recv_answer, S_HDR; lia | ]. cbn. apply xRet. }
  repeat split; try reflexivity; try assumption; try discriminate.
  - apply (C75_request_partial _ _ _ X); try lia; try discriminate. cbn. lia.
  - apply (C75_reply_partial _ _ _ X); [ lia | intros [] | reflexivity ].
Qed.

Print Assumptions C75_connections_partial.
Print Assumptions C75_leak.
Print Assumptions C75_connections_refuted.
Print Assumptions C75_memory.
Print Assumptions C75_list_only_with_success.
Print Assumptions C75_request_partial.
Print Assumptions C75_request_refuted.
Print Assumptions C75_reply_partial.
Print Assumptions C75_reply_refuted.
Print Assumptions C75_failure.
Print Assumptions C75_consumed_partial.
Print Assumptions C75_consumed_refuted.
Print Assumptions C75_send_data.
Print Assumptions C75_get_event.
