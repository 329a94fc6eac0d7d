(* The Disk Paxos ballot of src/paxos_lease.c (run_ballot, lines 453-903) run
   by any number of hosts on any number of disks, one sector read or write per
   step.

   What is modelled: the block written by each host (struct paxos_dblock plus
   the two flags that share its sector: DBLOCK_FL_RELEASED and the shared mode
   block), phase 1 and phase 2 of run_ballot, the check of the blocks read, the
   choice of the value, the decision, and recording the decided owner in the
   leader record (write_new_leader, reduced here to the fact that the host goes
   on to record it).  A host may give up at any step (error, abort, crash).

   Simplifications: a sector write or read is atomic; blocks that fail their
   checksum (skipped by the C loop, line 584) do not occur; the C code reads a
   whole disk with one call, here every sector is read in a separate step in
   any order, which allows more interleavings; a write that fails may or may not
   have reached the disk when the call returns, but does not reach it later;
   num_hosts and max_hosts are constants of the lease. *)
From Coq Require Import List NArith ZArith Lia Bool ZifyBool ZifyN ZifyNat Arith.
From Verif Require Import Majority.
Import ListNotations.
Open Scope N_scope.

(* leader.h / paxos_dblock.h: struct paxos_dblock; d_rel is DBLOCK_FL_RELEASED,
   d_sh the generation in a mode block with MBLOCK_SHARED (0: not shared) *)
Record dblk := mkD {
  d_mbal : N; d_bal : N; d_inp : N; d_inp2 : N; d_inp3 : N; d_lver : N;
  d_rel : bool; d_sh : N }.

Definition zero_blk : dblk := mkD 0 0 0 0 0 0 false 0.

(* constants of one lease: number of disks, num_hosts, max_hosts *)
Record cfg := mkC { c_disks : nat; c_hosts : N; c_max : N }.

(* paxos_lease.c:511-514: memset(&dblock, 0), mbal, lver *)
Definition phase1_blk (lver mbal : N) : dblk := mkD mbal 0 0 0 0 lver false 0.

(* result of looking at the blocks read in one phase *)
Inductive scan_res := ScanLver | ScanMbal | ScanGo (mx : dblk).

(* paxos_lease.c:554-659: phase 1 loop over the blocks read.
   bk->lver < dblock.lver: continue; bk->lver > dblock.lver: SANLK_DBLOCK_LVER;
   bk->mbal > dblock.mbal: SANLK_DBLOCK_MBAL; !inp, !bal: continue;
   bk->bal > bk_max.bal: bk_max = *bk *)
Fixpoint scan1 (lver mbal : N) (bks : list dblk) (mx : dblk) : scan_res :=
  match bks with
  | [] => ScanGo mx
  | bk :: r =>
      if d_lver bk <? lver then scan1 lver mbal r mx
      else if lver <? d_lver bk then ScanLver
      else if mbal <? d_mbal bk then ScanMbal
      else if d_inp bk =? 0 then scan1 lver mbal r mx
      else if d_bal bk =? 0 then scan1 lver mbal r mx
      else if d_bal mx <? d_bal bk then scan1 lver mbal r bk
      else scan1 lver mbal r mx
  end.

(* paxos_lease.c:767-861: phase 2 loop, same aborts, nothing collected *)
Fixpoint scan2 (lver mbal : N) (bks : list dblk) : scan_res :=
  match bks with
  | [] => ScanGo zero_blk
  | bk :: r =>
      if d_lver bk <? lver then scan2 lver mbal r
      else if lver <? d_lver bk then ScanLver
      else if mbal <? d_mbal bk then ScanMbal
      else scan2 lver mbal r
  end.

(* paxos_lease.c:688-700: values for phase 2; ours = (host_id, generation, now) *)
Definition phase2_blk (x mx : dblk) (host gen now : N) : dblk :=
  if d_inp mx =? 0
  then mkD (d_mbal x) (d_mbal x) host gen now (d_lver x) false 0
  else mkD (d_mbal x) (d_mbal x) (d_inp mx) (d_inp2 mx) (d_inp3 mx) (d_lver x) false 0.

(* flags stored in the same sector as the block values *)
Definition with_flags (x : dblk) (rel : bool) (sh : N) : dblk :=
  mkD (d_mbal x) (d_bal x) (d_inp x) (d_inp2 x) (d_inp3 x) (d_lver x) rel sh.

Inductive phase := P1 | P2.

(* where a host is inside run_ballot: its block, the disks it has written in
   this phase, the sectors it has read in this phase *)
Inductive loc :=
| Idle
| Wr (p : phase) (x : dblk) (w : list nat)
| Rd (p : phase) (x : dblk) (w : list nat) (seen : list (nat * N * dblk))
| Dec (x : dblk) (w : list nat).

Definition vals := (N * N * N)%type.
Definition blk_val (x : dblk) : vals := (d_inp x, d_inp2 x, d_inp3 x).

(* history (ghost): a ballot that reached phase 2, an owner recorded, an
   acquire started *)
Record prop := mkP { p_lver : N; p_bal : N; p_val : vals; p_host : N; p_w : list nat }.
Record rcd := mkR { r_host : N; r_lver : N; r_bal : N; r_val : vals; r_w : list nat }.

Record st := mkS {
  s_disk : nat -> N -> dblk;   (* sector 2 + host_id - 1 of each disk *)
  s_loc  : N -> loc;
  s_last : N -> dblk;          (* dblock_out of the host's latest ballot *)
  s_gen  : N -> N;             (* token->host_generation of the running acquire *)
  s_props : list prop;
  s_recs : list rcd;
  s_starts : list (N * N * N);   (* host, lver, generation *)
  s_saved : N -> dblk;         (* r->dblock of the host's resource struct *)
  s_floor : N }.               (* history: largest lver of an erased block *)

Definition init : st :=
  mkS (fun _ _ => zero_blk) (fun _ => Idle) (fun _ => zero_blk) (fun _ => 0) [] [] []
      (fun _ => zero_blk) 0.

Definition upd {A} (f : N -> A) (k : N) (v : A) : N -> A :=
  fun x => if x =? k then v else f x.
Definition upd_disk (f : nat -> N -> dblk) (d : nat) (h : N) (v : dblk) : nat -> N -> dblk :=
  fun d' h' => if (d' =? d)%nat && (h' =? h) then v else f d' h'.

Definition maj (c : cfg) (f : nat -> bool) : bool :=
  majority_disks (Z.of_nat (c_disks c)) (Z.of_nat (count (c_disks c) f)).
Definition inw (w : list nat) (d : nat) : bool := existsb (fun d' => (d =? d')%nat) w.
Definition hosts (c : cfg) : list N := map N.of_nat (seq 1 (N.to_nat (c_hosts c))).
(* every block q < num_hosts of disk d has been read *)
Definition read_full (c : cfg) (seen : list (nat * N * dblk)) (d : nat) : bool :=
  forallb (fun q => existsb (fun e => (fst (fst e) =? d)%nat && (snd (fst e) =? q)) seen) (hosts c).

Inductive act :=
| AStart (h lver mbal gen : N)
| AWrite (h : N) (d : nat) (ok : bool) (sh : N)
| AWdone (h : N)
| ARead (h : N) (d : nat) (q : N)
| ARdone (h now : N)
| ARec (h : N)
| AAbort (h : N)
| ASave (h : N)
| AReset (h : N)
| ARelw (h : N) (d : nat) (rel : bool) (sh : N)
| AZero (h : N) (d : nat).

Definition set_loc (s : st) (h : N) (l : loc) : st :=
  mkS (s_disk s) (upd (s_loc s) h l) (s_last s) (s_gen s) (s_props s) (s_recs s) (s_starts s)
      (s_saved s) (s_floor s).
Definition set_disk (s : st) (d : nat) (h : N) (x : dblk) : st :=
  mkS (upd_disk (s_disk s) d h x) (s_loc s) (s_last s) (s_gen s) (s_props s) (s_recs s) (s_starts s)
      (s_saved s) (s_floor s).
Definition set_saved (s : st) (h : N) (x : dblk) : st :=
  mkS (s_disk s) (s_loc s) (s_last s) (s_gen s) (s_props s) (s_recs s) (s_starts s)
      (upd (s_saved s) h x) (s_floor s).
Definition raise_floor (s : st) (h : N) : st :=
  mkS (s_disk s) (s_loc s) (s_last s) (s_gen s) (s_props s) (s_recs s) (s_starts s)
      (s_saved s) (N.max (s_floor s) (d_lver (s_last s h))).

(* the same block values *)
Definition same_blk (x y : dblk) : bool :=
  (d_mbal x =? d_mbal y) && (d_bal x =? d_bal y) && (d_inp x =? d_inp y) && (d_inp2 x =? d_inp2 y)
  && (d_inp3 x =? d_inp3 y) && (d_lver x =? d_lver y).

Definition idle (l : loc) : bool := match l with Idle => true | _ => false end.

Definition step (c : cfg) (s : st) (a : act) : option st :=
  match a with
  | AStart h lver mbal gen =>
      (* run_ballot entered with next_lver = leader lver + 1 and our_mbal, a
         number congruent to the host id (paxos_lease.c:2003-2010, 2106);
         verify_leader has checked host_id <= num_hosts (978) *)
      if idle (s_loc s h) && (1 <=? h) && (h <=? c_hosts c) && (c_hosts c <=? c_max c)
         && (mbal mod c_max c =? h mod c_max c) && (1 <=? mbal) && (1 <=? lver)
      then Some (mkS (s_disk s) (upd (s_loc s) h (Wr P1 (phase1_blk lver mbal) []))
                     (upd (s_last s) h (phase1_blk lver mbal)) (upd (s_gen s) h gen)
                     (s_props s) (s_recs s) ((h, lver, gen) :: s_starts s) (s_saved s) (s_floor s))
      else None
  | AWrite h d ok sh =>
      (* write_dblock, lines 519-526 and 722-729; ok = false: the write was
         reported as failed (and is not counted) although it reached the disk *)
      match s_loc s h with
      | Wr p x w =>
          if (d <? c_disks c)%nat then
            let s1 := set_disk s d h (with_flags x false sh) in
            Some (if ok then set_loc s1 h (Wr p x (d :: w)) else s1)
          else None
      | _ => None
      end
  | AWdone h =>
      (* majority_disks(num_disks, num_writes), lines 528, 731 *)
      match s_loc s h with
      | Wr p x w =>
          if maj c (inw w) then Some (set_loc s h (Rd p x w [])) else None
      | _ => None
      end
  | ARead h d q =>
      (* read_iobuf, lines 549, 752 *)
      match s_loc s h with
      | Rd p x w seen =>
          if (d <? c_disks c)%nat
          then Some (set_loc s h (Rd p x w (seen ++ [(d, q, s_disk s d q)])))
          else None
      | _ => None
      end
  | ARdone h now =>
      (* lines 554-700 / 767-873; now = monotime(), nonzero *)
      match s_loc s h with
      | Rd P1 x w seen =>
          if maj c (read_full c seen) && (1 <=? now) then
            match scan1 (d_lver x) (d_mbal x) (map snd seen) zero_blk with
            | ScanGo mx =>
                let y := phase2_blk x mx h (s_gen s h) now in
                Some (mkS (s_disk s) (upd (s_loc s) h (Wr P2 y []))
                          (upd (s_last s) h y) (s_gen s)
                          (mkP (d_lver y) (d_mbal y) (blk_val y) h w :: s_props s)
                          (s_recs s) (s_starts s) (s_saved s) (s_floor s))
            | _ => Some (set_loc s h Idle)
            end
          else None
      | Rd P2 x w seen =>
          if maj c (read_full c seen) then
            match scan2 (d_lver x) (d_mbal x) (map snd seen) with
            | ScanGo _ => Some (set_loc s h (Dec x w))
            | _ => Some (set_loc s h Idle)
            end
          else None
      | _ => None
      end
  | ARec h =>
      (* paxos_lease_acquire lines 2118-2142: record lver, inp, inp2, inp3 *)
      match s_loc s h with
      | Dec x w =>
          Some (mkS (s_disk s) (upd (s_loc s) h Idle) (s_last s) (s_gen s) (s_props s)
                    (mkR h (d_lver x) (d_mbal x) (blk_val x) w :: s_recs s) (s_starts s)
                    (s_saved s) (s_floor s))
      | _ => None
      end
  | AAbort h => Some (set_loc s h Idle)
  | ASave h =>
      (* resource.c:1886, 1376: memcpy(&r->dblock, &dblock) *)
      Some (set_saved s h (s_last s h))
  | AReset h =>
      (* resource.c:1266-1322 get_resource: a new, zeroed struct resource; also
         dblock returned by an acquire that ran no ballot *)
      Some (set_saved s h zero_blk)
  | ARelw h d rel sh =>
      (* resource.c:414-537 write_host_block with r->dblock
         (write_mblock_zero_dblock_release, write_mblock_shared_dblock_release,
         convert_sh2ex_token line 1428).  If r->dblock is not the block of the
         host's latest ballot this overwrites that block with an older one *)
      if idle (s_loc s h)
      then let s1 := set_disk s d h (with_flags (s_saved s h) rel sh) in
           Some (if same_blk (s_saved s h) (s_last s h) then s1 else raise_floor s1 h)
      else None
  | AZero h d =>
      (* clear_dead_shared line 637: write_host_block(host_id, 0, 0, NULL) *)
      Some (raise_floor (set_disk s d h zero_blk) h)
  end.

(* Discipline needed for agreement: a host's ballots have increasing (lver,
   mbal); a host that recorded an owner for a version later competes only for
   larger versions; a block is erased (or replaced by an older one) only when
   no host is or will be competing for its version or a smaller one. *)
Definition lt2 (a b : N * N) : Prop := fst a < fst b \/ (fst a = fst b /\ snd a < snd b).
Definition le2 (a b : N * N) : Prop := fst a < fst b \/ (fst a = fst b /\ snd a <= snd b).
Definition key (x : dblk) : N * N := (d_lver x, d_mbal x).

Definition busy_above (s : st) (V : N) : Prop :=
  forall q, match s_loc s q with
            | Idle => True
            | Wr _ x _ | Rd _ x _ _ | Dec x _ => V < d_lver x
            end.

Definition disciplined (s : st) (a : act) : Prop :=
  match a with
  | AStart h lver mbal _ =>
      lt2 (key (s_last s h)) (lver, mbal) /\
      (forall r, In r (s_recs s) -> r_host r = h -> r_lver r < lver) /\
      s_floor s < lver
  | ARelw h _ _ _ =>
      same_blk (s_saved s h) (s_last s h) = true \/ busy_above s (d_lver (s_last s h))
  | AZero h _ => busy_above s (d_lver (s_last s h))
  | _ => True
  end.

Inductive reach (c : cfg) (D : st -> act -> Prop) : st -> Prop :=
| reach_init : reach c D init
| reach_step s a s' : reach c D s -> D s a -> step c s a = Some s' -> reach c D s'.
