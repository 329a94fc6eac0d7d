(* run_ballot, src/paxos_lease.c:453-903, as the sequential function it is: what it
   returns and what it leaves in *dblock_out for all results of its calls.  Ballot.v has
   the same ballot as steps on shared disks; C70.v relates the two.

   The inputs are the results of posix_memalign, write_dblock and read_iobuf for each
   disk, the blocks read (with the result of verify_dblock), and monotime.
   Left out: logging, the mode blocks (check_mode_block), iobuf_len = 0 (the caller has
   checked sector_size). *)
From Coq Require Import List NArith ZArith Lia Bool Arith ZifyBool ZifyN ZifyNat.
From Verif Require Import Codec Leader Acquire DeltaRenew Majority Ballot.
Import ListNotations.
Open Scope N_scope.

(* src/sanlock_rv.h *)
Definition SANLK_DBLOCK_READ : Z := (-210).
Definition SANLK_DBLOCK_WRITE : Z := (-211).

(* the results of the calls, disk by disk.  A block is given with the result of
   verify_dblock (true: good), in the order of the hosts 1, 2, .. num_hosts *)
Record bin := mkBin {
  b_alloc : list Z;
  b_w1 : list Z;
  b_r1 : list (Z * list (bool * dblk));
  b_now : N;
  b_w2 : list Z;
  b_r2 : list (Z * list (bool * dblk)) }.

(* 486-492: the loop over the disks returns the first nonzero value *)
Fixpoint alloc_all (l : list Z) : Z :=
  match l with
  | [] => 0%Z
  | rv :: r => if (rv =? 0)%Z then alloc_all r else rv
  end.

(* 517-526, 720-729: number of writes that succeeded *)
Definition num_ok (l : list Z) : nat := length (filter (fun rv => (0 <=? rv)%Z) l).

(* 561-659: the blocks of one disk in phase 1 *)
Fixpoint blocks1 (lver mbal : N) (bks : list (bool * dblk)) (mx : dblk) : scan_res :=
  match bks with
  | [] => ScanGo mx
  | (good, bk) :: r =>
      if negb good then blocks1 lver mbal r mx
      else if d_lver bk <? lver then blocks1 lver mbal r mx
      else if lver <? d_lver bk then ScanLver
      else if mbal <? d_mbal bk then ScanMbal
      else if d_inp bk =? 0 then blocks1 lver mbal r mx
      else if d_bal bk =? 0 then blocks1 lver mbal r mx
      else if d_bal mx <? d_bal bk then blocks1 lver mbal r bk
      else blocks1 lver mbal r mx
  end.

(* 764-861: the same in phase 2 *)
Fixpoint blocks2 (lver mbal : N) (bks : list (bool * dblk)) : scan_res :=
  match bks with
  | [] => ScanGo zero_blk
  | (good, bk) :: r =>
      if negb good then blocks2 lver mbal r
      else if d_lver bk <? lver then blocks2 lver mbal r
      else if lver <? d_lver bk then ScanLver
      else if mbal <? d_mbal bk then ScanMbal
      else blocks2 lver mbal r
  end.

(* what the loop over the disks yields: an abort, or num_reads, bk_max *)
Inductive rres := RAbort (rv : Z) | RGo (num_reads : nat) (mx : dblk).

(* 542-660 *)
Fixpoint disks1 (lver mbal : N) (l : list (Z * list (bool * dblk))) (k : nat) (mx : dblk) : rres :=
  match l with
  | [] => RGo k mx
  | (rv, bks) :: r =>
      if (rv <? 0)%Z then disks1 lver mbal r k mx
      else match blocks1 lver mbal bks mx with
           | ScanLver => RAbort SANLK_DBLOCK_LVER
           | ScanMbal => RAbort SANLK_DBLOCK_MBAL
           | ScanGo mx' => disks1 lver mbal r (S k) mx'
           end
  end.

(* 745-861; bufs: the iobufs that were not given up after a timeout in phase 1 *)
Fixpoint disks2 (lver mbal : N) (bufs : list bool) (l : list (Z * list (bool * dblk))) (k : nat) : rres :=
  match bufs, l with
  | b :: bufs', (rv, bks) :: r =>
      if negb b then disks2 lver mbal bufs' r k
      else if (rv <? 0)%Z then disks2 lver mbal bufs' r k
      else match blocks2 lver mbal bks with
           | ScanLver => RAbort SANLK_DBLOCK_LVER
           | ScanMbal => RAbort SANLK_DBLOCK_MBAL
           | ScanGo _ => disks2 lver mbal bufs' r (S k)
           end
  | _, _ => RGo k zero_blk
  end.

(* 551-552: iobuf[d] = NULL *)
Definition bufs_after (l : list (Z * list (bool * dblk))) : list bool :=
  map (fun x => negb (fst x =? SANLK_AIO_TIMEOUT)%Z) l.

Definition majn (n : nat) (k : nat) : bool := majority_disks (Z.of_nat n) (Z.of_nat k).

(* the whole function: n disks, our host id and generation, next_lver, our_mbal; db is
   what *dblock_out holds at the call.  Result: return value, *dblock_out, T_RETRACT_PAXOS *)
Definition run_ballot (n : nat) (host gen lver mbal : N) (i : bin) (db : dblk) : Z * dblk * bool :=
  if negb (alloc_all (b_alloc i) =? 0)%Z then (alloc_all (b_alloc i), db, false)
  else
    let x := phase1_blk lver mbal in
    if negb (majn n (num_ok (b_w1 i))) then (SANLK_DBLOCK_WRITE, x, false)
    else match disks1 lver mbal (b_r1 i) 0 zero_blk with
    | RAbort rv => (rv, x, false)
    | RGo k1 mx =>
        if negb (majn n k1) then (SANLK_DBLOCK_READ, x, false)
        else
          let y := phase2_blk x mx host gen (b_now i) in
          if negb (majn n (num_ok (b_w2 i))) then (SANLK_DBLOCK_WRITE, y, true)
          else match disks2 lver mbal (bufs_after (b_r1 i)) (b_r2 i) 0 with
          | RAbort rv => (rv, y, false)
          | RGo k2 _ =>
              if negb (majn n k2) then (SANLK_DBLOCK_READ, y, true)
              else (0%Z, y, false)
          end
    end.

(* the inputs fit: one result per disk, one block per host and disk *)
Definition fits (n : nat) (num_hosts : nat) (i : bin) : Prop :=
  length (b_alloc i) = n /\ length (b_w1 i) = n /\ length (b_w2 i) = n /\
  length (b_r1 i) = n /\ length (b_r2 i) = n /\
  Forall (fun x => (0 <= fst x)%Z -> length (snd x) = num_hosts) (b_r1 i) /\
  Forall (fun x => (0 <= fst x)%Z -> length (snd x) = num_hosts) (b_r2 i).

(* ---- paxos_lease_acquire with its ballots: dblock (1660) is a variable of
   paxos_lease_acquire, zero at the start (1676), written by every run_ballot ---- *)
Definition to_ad (x : dblk) : adblock := mkAd (d_lver x) (d_inp x) (d_inp2 x) (d_inp3 x).

Inductive acall := CIn (i : ainput) | CBallot (b : bin).

Inductive acq (p : aparams) (n : nat) (ss al : Z) : list acall -> astate -> dblk -> list aout -> Prop :=
| acq_nil : acq p n ss al [] (astart ss al) zero_blk []
| acq_in h s db out i s' o :
    acq p n ss al h s db out ->
    (forall rv d, i <> IBallot rv d) ->
    astep p s i = Some (s', o) -> acq p n ss al (CIn i :: h) s' db (o ++ out)
| acq_ballot h s db out cur mbal b rv db' rt s' o :
    acq p n ss al h s db out ->
    as_pc s = PBallot cur mbal ->
    fits n (N.to_nat (l_num_hosts cur)) b ->
    run_ballot n (a_host p) (a_gen p) (l_lver cur + 1) mbal b db = (rv, db', rt) ->
    astep p s (IBallot rv (to_ad db')) = Some (s', o) ->
    acq p n ss al (CBallot b :: h) s' db' (o ++ out).
