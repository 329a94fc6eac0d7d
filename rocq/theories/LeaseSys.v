(* One resource lease on one disk, used by any number of hosts: leader record,
   ballot blocks with their released and shared flags, acquire (exclusive or
   shared), release, conversion in both directions, host crash and re-join.

   src/paxos_lease.c: paxos_lease_acquire 1647-2191, paxos_lease_release
   2230-2408; src/resource.c: acquire_token 1800-1989, _release_token 1010-1100,
   clear_dead_shared 587-654, convert_sh2ex_token 1324-1490, convert_ex2sh_token
   1492-1537, write_host_block 414-537.  The ballot is Ballot.v with one disk.

   One step is one disk operation (or a local decision).  Simplifications:
   - one disk; the read of the whole lease area in paxos_lease_acquire ("read 1")
     is one step, the reads of run_ballot are one step per sector, in the order
     of the C loop;
   - an owner is taken to be dead exactly when its host crashed, left or moved to
     a new generation (that this is what the timed checks establish is the
     subject of C13, C20 and C23);
   - one acquire at a time per host (resources_add / resources_held lists, C28);
   - I/O errors: phase 1 (BErr), phase 2 read (BErr2), leader write (BComErr,
     landed or not); an I/O error elsewhere is a crash of the host; a write that
     was reported as failed does not land later;
   - write_host_block's replacement of a block whose inp is another host's
     (resource.c:452) is left out;
   - num_hosts, max_hosts constant; names, sizes and checksums are not part of
     the record (C04). *)
From Coq Require Import List NArith ZArith Lia Bool ZifyBool ZifyN ZifyNat Arith.
From Verif Require Import Majority Mbal Ballot.
Import ListNotations.
Open Scope N_scope.

(* leader.h struct leader_record, members used here; timestamp 0 = LEASE_FREE;
   l_short: LFL_SHORT_HOLD *)
Record ldr := mkL {
  l_lver : N; l_owner : N; l_gen : N; l_ts : N;
  l_writer : N; l_wgen : N; l_wts : N; l_short : bool }.

(* memcmp of two leader records *)
Definition ldr_eqb (a b : ldr) : bool :=
  (l_lver a =? l_lver b) && (l_owner a =? l_owner b) && (l_gen a =? l_gen b) && (l_ts a =? l_ts b)
  && (l_writer a =? l_writer b) && (l_wgen a =? l_wgen b) && (l_wts a =? l_wts b)
  && Bool.eqb (l_short a) (l_short b).

(* as left by paxos_lease_init *)
Definition ldr_init : ldr := mkL 0 0 0 0 0 0 0 false.

(* what is being acquired; MCv v: conversion of a shared lease got at version v *)
Inductive mode := MEx | MSh | MCv (v : N).

(* this acquire has run no ballot / has started one / has completed phase 1 of one *)
Inductive att := ANone | ARan | ADone.

(* what a leader release belongs to: release of an exclusive lease, shared
   acquire, conversion to shared, failed conversion to exclusive *)
Inductive rkind := RFree | RShare (v : N) | RDown (v : N) | RBack (v : N).

(* where a host is *)
Inductive pc :=
| Out
| Ready
| Acq (m : mode)
| Got (m : mode) (cur : ldr) (mx : N)
| Run (m : mode) (cur : ldr) (mbal : N) (copy : bool) (a : att)
| Bal (m : mode) (cur : ldr) (mbal : N) (a : att)
| Com (m : mode) (cur : ldr)
| Own (m : mode) (a : att) (lead : ldr)
| Chk (m : mode) (lead : ldr) (todo : list N) (live : bool) (er : option N)
| Hold (lead : ldr)
| Rel (k : rkind) (lead : option ldr)
| RelW (k : rkind) (l : ldr)
| HoldSh (v : N)
| FailSh
| Erase (lead : option ldr).

Record bst := mkB {
  b_a : Ballot.st;
  b_ldr : ldr;
  b_pc : N -> pc;
  b_gen : N -> N;
  b_shb : N -> list N }.   (* token->shared_bitmap; length = token->shared_count *)

Definition binit : bst := mkB Ballot.init ldr_init (fun _ => Out) (fun _ => 0) (fun _ => []).

Definition cfg1 (nh mh : N) : cfg := mkC 1 nh mh.

Definition ostep (c : cfg) (o : option Ballot.st) (a : act) : option Ballot.st :=
  match o with Some s => step c s a | None => None end.

(* the host with this id is joined with this generation *)
Definition alive (s : bst) (o g : N) : bool :=
  match b_pc s o with Out => false | _ => true end && (b_gen s o =? g).

Definition blk (s : bst) (h : N) : dblk := s_disk (b_a s) 0%nat h.

(* paxos_lease.c:1729-1759: free, or own record: copy_cur_leader is set *)
Definition copies (s : bst) (h : N) (cur : ldr) : bool :=
  (l_ts cur =? 0) || ((l_owner cur =? h) && (l_gen cur <=? b_gen s h)).

(* paxos_lease.c:1729-1939: reasons to compete although there is a record *)
Definition takeover (s : bst) (h : N) (cur : ldr) : bool :=
  copies s h cur
  || negb (alive s (l_owner cur) (l_gen cur))                       (* 1836, 1850, 1926 *)
  || (negb (l_writer cur =? l_owner cur) && d_rel (blk s (l_owner cur))).  (* 1899 *)

(* check_mode_block (resource.c:396) on the blocks looked at before the phase 1
   loop (paxos_lease.c:554-659) stops *)
Fixpoint shscan (lver mbal : N) (seen : list (nat * N * dblk)) : list N :=
  match seen with
  | [] => []
  | (_, q, bk) :: r =>
      let here := if d_sh bk =? 0 then [] else [q] in
      if d_lver bk <? lver then here ++ shscan lver mbal r
      else if lver <? d_lver bk then here
      else if mbal <? d_mbal bk then here
      else here ++ shscan lver mbal r
  end.

(* _lease_read_one 1379-1421 *)
Definition max_mbal_of (c : cfg) (s : bst) : N :=
  match max_mbal_one (map (fun h => (d_mbal (blk s h), true)) (hosts c)) with Some m => m | None => 0 end.

Inductive bact :=
| BJoin (h : N) | BCrash (h : N)
| BAcquire (h : N) (sh : bool)
| BConvert (h : N)
| BShRetry (h : N)
| BReadLdr (h : N)
| BDecide (h : N)
| BRetry (h : N)
| BRead (h : N)
| BPhase (h now : N)
| BErr (h : N)
| BErr2 (h : N)
| BCommit (h wts : N)
| BComErr (h wts : N) (landed : bool)
| BOwn (h : N)
| BChk (h : N)
| BRelease (h : N)
| BDown (h : N)
| BRelRead (h : N)
| BRelWrite (h wts : N)
| BFailSh (h : N)
| BErase (h : N).

Definition set_pc (s : bst) (h : N) (p : pc) : bst :=
  mkB (b_a s) (b_ldr s) (upd (b_pc s) h p) (b_gen s) (b_shb s).
Definition set_a_pc (s : bst) (a : Ballot.st) (h : N) (p : pc) : bst :=
  mkB a (b_ldr s) (upd (b_pc s) h p) (b_gen s) (b_shb s).
Definition set_shb (s : bst) (h : N) (l : list N) : bst :=
  mkB (b_a s) (b_ldr s) (b_pc s) (b_gen s) (upd (b_shb s) h l).

(* an acquire that failed because another host owns the lease: an exclusive one
   is done (lver 0: no disk write), a shared one goes through _release_token with
   R_SHARED set (acquire_token 1831-1868), a conversion leaves the shared lease *)
Definition lost (m : mode) : pc :=
  match m with MEx => Ready | MSh => FailSh | MCv v => HoldSh v end.
(* one that failed with an error *)
Definition failed (m : mode) : pc := match m with MCv v => HoldSh v | _ => Ready end.
(* one that failed with T_RETRACT_PAXOS *)
Definition retracted (m : mode) (l : option ldr) : pc :=
  match m with MCv v => Rel (RBack v) l | _ => Erase l end.

(* generation written with MBLOCK_SHARED by write_dblock (T_WRITE_DBLOCK_MBLOCK_SH) *)
Definition wsh (s : bst) (h : N) (m : mode) : N := match m with MCv _ => b_gen s h | _ => 0 end.

(* where a release leads: 2408 success or nothing to do / error *)
Definition rel_ok (k : rkind) : pc :=
  match k with RFree => Ready | RShare v | RDown v | RBack v => HoldSh v end.

Definition with_a (o : option Ballot.st) (k : Ballot.st -> option bst) : option bst :=
  match o with Some a => k a | None => None end.

(* 2118-2147 *)
Definition new_ldr (s : bst) (h wts : N) (m : mode) (cur : ldr) (x : dblk) : ldr :=
  mkL (d_lver x) (d_inp x) (d_inp2 x) (d_inp3 x) h (b_gen s h) wts
      (if d_inp x =? h then match m with MSh => true | _ => false end else l_short cur).

Definition memb (h : N) (l : list N) : bool := existsb (N.eqb h) l.

Definition bstep (c : cfg) (s : bst) (act : bact) : option bst :=
  match act with
  | BJoin h =>
      match b_pc s h with
      | Out => if (1 <=? h) && (h <=? c_hosts c)
               then Some (mkB (b_a s) (b_ldr s) (upd (b_pc s) h Ready)
                              (upd (b_gen s) h (b_gen s h + 1)) (b_shb s))
               else None
      | _ => None
      end
  | BCrash h =>
      match b_pc s h with
      | Out => None
      | _ => with_a (step c (b_a s) (AAbort h)) (fun a => Some (set_a_pc s a h Out))
      end
  | BAcquire h sh =>
      (* acquire_token: new struct resource, shared_bitmap zero *)
      match b_pc s h with
      | Ready => with_a (step c (b_a s) (AReset h)) (fun a =>
                   Some (set_shb (set_a_pc s a h (Acq (if sh then MSh else MEx))) h []))
      | _ => None
      end
  | BConvert h =>
      match b_pc s h with
      | HoldSh v => Some (set_shb (set_pc s h (Acq (MCv v))) h [])
      | _ => None
      end
  | BShRetry h =>
      (* acquire_token 1843-1848 (allowed here whatever the SHORT_HOLD hint) *)
      match b_pc s h with
      | FailSh => Some (set_pc s h (Acq MSh))
      | _ => None
      end
  | BReadLdr h =>
      (* 1692: paxos_lease_read *)
      match b_pc s h with
      | Acq m => Some (set_pc s h (Got m (b_ldr s) (max_mbal_of c s)))
      | _ => None
      end
  | BDecide h =>
      (* 1729-1981 *)
      match b_pc s h with
      | Got m cur mx =>
          if takeover s h cur
          then Some (set_pc s h (Run m cur (first_mbal mx (c_max c) h) (copies s h cur) ANone))
          else Some (set_pc s h (lost m))      (* SANLK_ACQUIRE_IDLIVE *)
      | _ => None
      end
  | BRetry h =>
      (* 2012-2095, and write 1 of run_ballot *)
      match b_pc s h with
      | Run m cur mbal copy a =>
          let tmp := if copy then cur else b_ldr s in
          let next := l_lver cur + 1 in
          if l_lver tmp =? next then
            if (l_owner tmp =? h) && (l_gen tmp =? b_gen s h)
            then Some (set_pc s h (Own m a tmp))
            else Some (set_pc s h (lost m))     (* SANLK_ACQUIRE_OWNED *)
          else if next <? l_lver tmp then Some (set_pc s h (Acq m))
          else if negb (ldr_eqb cur tmp) then Some (set_pc s h (Acq m))
          else with_a (ostep c (ostep c (step c (b_a s) (AStart h next mbal (b_gen s h)))
                                        (AWrite h 0 true (wsh s h m))) (AWdone h))
                 (fun a1 => Some (set_a_pc s a1 h
                    (Bal m cur mbal (match a with ANone => ARan | _ => a end))))
      | _ => None
      end
  | BRead h =>
      (* reads 2 and 3 of run_ballot, next sector *)
      match b_pc s h, s_loc (b_a s) h with
      | Bal _ _ _ _, Rd _ _ _ seen =>
          let q := N.of_nat (length seen) + 1 in
          if q <=? c_hosts c
          then with_a (step c (b_a s) (ARead h 0 q))
                 (fun a => Some (mkB a (b_ldr s) (b_pc s) (b_gen s) (b_shb s)))
          else None
      | _, _ => None
      end
  | BPhase h now =>
      (* end of the loop of a phase; phase 1 goes on to write 2 *)
      match b_pc s h, s_loc (b_a s) h with
      | Bal m cur mbal at_, Rd P1 x _ seen =>
          with_a (step c (b_a s) (ARdone h now)) (fun a1 =>
            let s1 := set_shb s h (b_shb s h ++ shscan (d_lver x) (d_mbal x) seen) in
            match s_loc a1 h with
            | Wr _ _ _ =>
                with_a (ostep c (step c a1 (AWrite h 0 true (wsh s h m))) (AWdone h))
                  (fun a2 => Some (set_a_pc s1 a2 h (Bal m cur mbal ADone)))
            | _ => (* DBLOCK_MBAL, DBLOCK_LVER: 2097-2108 *)
                Some (set_a_pc s1 a1 h (Run m cur (mbal + c_max c) false at_))
            end)
      | Bal m cur mbal at_, Rd P2 x _ seen =>
          with_a (step c (b_a s) (ARdone h now)) (fun a1 =>
            match s_loc a1 h with
            | Dec _ _ => Some (set_a_pc s a1 h (Com m cur))
            | _ => Some (set_a_pc s a1 h (Run m cur (mbal + c_max c) false at_))
            end)
      | _, _ => None
      end
  | BErr h =>
      (* read error in phase 1 *)
      match b_pc s h, s_loc (b_a s) h with
      | Bal m _ _ _, Rd P1 _ _ _ =>
          with_a (step c (b_a s) (AAbort h)) (fun a => Some (set_a_pc s a h (failed m)))
      | _, _ => None
      end
  | BErr2 h =>
      (* read error in phase 2: 886-899 T_RETRACT_PAXOS *)
      match b_pc s h, s_loc (b_a s) h with
      | Bal m _ _ _, Rd P2 _ _ _ =>
          with_a (step c (b_a s) (AAbort h)) (fun a => Some (set_a_pc s a h (retracted m None)))
      | _, _ => None
      end
  | BCommit h wts =>
      (* 2118-2185 *)
      match b_pc s h, s_loc (b_a s) h with
      | Com m cur, Dec x _ =>
          let nl := new_ldr s h wts m cur x in
          with_a (step c (b_a s) (ARec h)) (fun a =>
            Some (mkB a nl (upd (b_pc s) h (if d_inp x =? h then Own m ADone nl else lost m))
                      (b_gen s) (b_shb s)))
      | _, _ => None
      end
  | BComErr h wts landed =>
      (* 2150-2155: the leader write failed *)
      match b_pc s h, s_loc (b_a s) h with
      | Com m cur, Dec x _ =>
          let nl := new_ldr s h wts m cur x in
          if landed then
            with_a (step c (b_a s) (ARec h)) (fun a =>
              Some (mkB a nl (upd (b_pc s) h (retracted m (Some nl))) (b_gen s) (b_shb s)))
          else
            with_a (step c (b_a s) (AAbort h)) (fun a =>
              Some (set_a_pc s a h (retracted m (Some nl))))
      | _, _ => None
      end
  | BOwn h =>
      (* acquire_token 1885-1935 and convert_sh2ex_token 1375-1393 after
         paxos_lease_acquire returned SANLK_OK.  Without a ballot in this call the
         dblock variable is still zero *)
      match b_pc s h with
      | Own m a lead =>
          with_a (step c (b_a s) (match a with ANone => AReset h | _ => ASave h end)) (fun a1 =>
            match m with
            | MSh =>
                with_a (step c a1 (ARelw h 0 true (b_gen s h)))
                  (fun a2 => Some (set_a_pc s a2 h (Rel (RShare (l_lver lead)) (Some lead))))
            | MEx =>
                match b_shb s h with
                | [] => Some (set_a_pc s a1 h (Hold lead))
                | l => Some (set_a_pc s a1 h (Chk m lead (filter (fun q => memb q l) (hosts c)) false None))
                end
            | MCv v =>
                match b_shb s h with
                | [] | [_] =>
                    with_a (step c a1 (ARelw h 0 false 0)) (fun a2 => Some (set_a_pc s a2 h (Hold lead)))
                | l => Some (set_a_pc s a1 h (Chk m lead (filter (fun q => memb q l) (hosts c)) false None))
                end
            end)
      | _ => None
      end
  | BChk h =>
      (* clear_dead_shared 594-650, one disk operation per step; then
         acquire_token 1953-1966, convert_sh2ex_token 1403-1428 *)
      match b_pc s h with
      | Chk m lead todo live (Some q) =>
          with_a (step c (b_a s) (AZero q 0)) (fun a => Some (set_a_pc s a h (Chk m lead todo live None)))
      | Chk m lead (q :: todo) live None =>
          if q =? h then Some (set_pc s h (Chk m lead todo live None))
          else if d_sh (blk s q) =? 0 then Some (set_pc s h (Chk m lead todo live None))
          else if alive s q (d_sh (blk s q)) then Some (set_pc s h (Chk m lead todo true None))
          else Some (set_pc s h (Chk m lead todo live (Some q)))
      | Chk MEx lead [] true None =>
          with_a (step c (b_a s) (ARelw h 0 true 0))
            (fun a => Some (set_a_pc s a h (Rel RFree (Some lead))))
      | Chk (MCv v) lead [] true None => Some (set_pc s h (Rel (RBack v) (Some lead)))
      | Chk MEx lead [] false None => Some (set_pc s h (Hold lead))
      | Chk (MCv v) lead [] false None =>
          with_a (step c (b_a s) (ARelw h 0 false 0)) (fun a => Some (set_a_pc s a h (Hold lead)))
      | _ => None
      end
  | BRelease h =>
      (* _release_token: write_mblock_zero_dblock_release *)
      match b_pc s h with
      | Hold lead =>
          with_a (step c (b_a s) (ARelw h 0 true 0))
            (fun a => Some (set_a_pc s a h (Rel RFree (Some lead))))
      | HoldSh _ =>
          with_a (step c (b_a s) (ARelw h 0 true 0)) (fun a => Some (set_a_pc s a h Ready))
      | _ => None
      end
  | BDown h =>
      (* convert_ex2sh_token *)
      match b_pc s h with
      | Hold lead =>
          with_a (step c (b_a s) (ARelw h 0 true (b_gen s h)))
            (fun a => Some (set_a_pc s a h (Rel (RDown (l_lver lead)) (Some lead))))
      | _ => None
      end
  | BRelRead h =>
      (* paxos_lease_release 2240-2385: read and checks *)
      match b_pc s h with
      | Rel k lead =>
          let l := b_ldr s in
          if negb (l_writer l =? h) then Some (set_pc s h (rel_ok k))
          else if (match lead with Some ll => negb (l_lver l =? l_lver ll) | None => false end)
                  || (l_ts l =? 0) || negb (l_owner l =? h) || negb (l_gen l =? b_gen s h)
                  || (match lead with Some ll => negb (ldr_eqb l ll) | None => false end)
          then match k with
               | RFree => Some (set_pc s h Ready)
               | RShare _ =>
                   (* acquire_token 1909-1916: R_UNDO_SHARED *)
                   with_a (step c (b_a s) (ARelw h 0 true 0)) (fun a => Some (set_a_pc s a h (Rel RFree lead)))
               | RDown _ =>
                   (* convert_ex2sh_token 1515-1527: error, the client keeps its
                      exclusive token *)
                   match lead with Some ll => Some (set_pc s h (Hold ll)) | None => None end
               | RBack v => Some (set_pc s h (HoldSh v))
               end
          else Some (set_pc s h (RelW k l))
      | _ => None
      end
  | BRelWrite h wts =>
      (* 2390-2401 *)
      match b_pc s h with
      | RelW k l =>
          Some (mkB (b_a s)
                    (mkL (l_lver l) (l_owner l) (l_gen l) 0 h (b_gen s h) wts false)
                    (upd (b_pc s) h (rel_ok k)) (b_gen s) (b_shb s))
      | _ => None
      end
  | BFailSh h =>
      (* _release_token with R_SHARED; r->dblock is still zero *)
      match b_pc s h with
      | FailSh => with_a (step c (b_a s) (ARelw h 0 true 0)) (fun a => Some (set_a_pc s a h Ready))
      | _ => None
      end
  | BErase h =>
      (* _release_token with R_ERASE_ALL 1015-1042 *)
      match b_pc s h with
      | Erase lead =>
          with_a (step c (b_a s) (ARelw h 0 true 0)) (fun a => Some (set_a_pc s a h (Rel RFree lead)))
      | _ => None
      end
  end.

Inductive breach (c : cfg) (D : bst -> bact -> Prop) : bst -> Prop :=
| breach_init : breach c D binit
| breach_step s a s' : breach c D s -> D s a -> bstep c s a = Some s' -> breach c D s'.

Fixpoint brun (c : cfg) (s : bst) (l : list bact) : option bst :=
  match l with
  | [] => Some s
  | a :: r => match bstep c s a with Some s' => brun c s' r | None => None end
  end.

(* the exclusive / shared lease is held *)
Definition holds_ex (s : bst) (h : N) : bool := match b_pc s h with Hold _ => true | _ => false end.
Definition holds_sh (s : bst) (h : N) : bool :=
  match b_pc s h with
  | HoldSh _ | Acq (MCv _) | Got (MCv _) _ _ | Run (MCv _) _ _ _ _ | Bal (MCv _) _ _ _
  | Com (MCv _) _ | Own (MCv _) _ _ | Chk (MCv _) _ _ _ _ | Rel (RBack _) _ | RelW (RBack _) _ => true
  | _ => false
  end.
