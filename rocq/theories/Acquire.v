(* The decision part of paxos_lease_acquire, src/paxos_lease.c:1647-2191, and
   host_info, src/lockspace.c:295-329.

   The function is a state machine: a state for every point where it calls out
   (disk reads and writes, run_ballot, host_info, monotime, sleep); an input is
   what that call delivers.  Any list of inputs is a possible execution: the
   callers of this file quantify over all of them.  run_ballot itself is in
   Ballot.v; the reads are in LeaderReadNum.v, Mbal.v.
   Left out: logging, the random delay before a retry (2098-2105), closing of
   the host id disk. *)
From Coq Require Import List NArith ZArith Lia Bool Arith ZifyBool ZifyN.
From Verif Require Import Bytes Crc Codec Leader LeaderReadNum Sizes Mbal Timeouts HostStatus.
Import ListNotations.
Open Scope N_scope.

(* src/sanlock_rv.h *)
Definition SANLK_DBLOCK_LVER : Z := (-212).
Definition SANLK_DBLOCK_MBAL : Z := (-213).
Definition SANLK_ACQUIRE_LVER : Z := (-240).
Definition SANLK_ACQUIRE_LOCKSPACE : Z := (-241).
Definition SANLK_ACQUIRE_IDDISK : Z := (-242).
Definition SANLK_ACQUIRE_IDLIVE : Z := (-243).
Definition SANLK_ACQUIRE_OWNED : Z := (-244).
Definition SANLK_ACQUIRE_OTHER : Z := (-245).
Definition SANLK_ACQUIRE_OWNED_RETRY : Z := (-247).
Definition EINVAL_ : Z := (-22).
Definition LEASE_FREE : N := 0.           (* src/leader.h:58 *)
Definition LFL_SHORT_HOLD : N := 1.       (* src/leader.h:36 *)
Definition DBLOCK_FL_RELEASED : N := 1.   (* src/paxos_dblock.h:14 *)

(* arguments: token fields, flags, acquire_lver, new_num_hosts *)
Record aparams := mkAp {
  a_host : N; a_gen : N;
  a_force : bool; a_shared : bool; a_nowait : bool;
  a_lver : N; a_num_hosts : N;
  a_fire : N }.    (* com.watchdog_fire_timeout *)

(* memcmp of two struct leader_record: no padding in the struct *)
Definition leader_eqb (a b : leader) : bool :=
  leaders_match a b &&
  N.eqb (l_timestamp a) (l_timestamp b) && N.eqb (l_unused1 a) (l_unused1 b) &&
  N.eqb (l_checksum a) (l_checksum b) && N.eqb (l_unused2 a) (l_unused2 b) &&
  N.eqb (l_io_timeout a) (l_io_timeout b) && N.eqb (l_write_id a) (l_write_id b) &&
  N.eqb (l_write_generation a) (l_write_generation b) &&
  N.eqb (l_write_timestamp a) (l_write_timestamp b).

(* the values run_ballot hands back in *dblock_out, src/paxos_dblock.h:18-30 *)
Record adblock := mkAd { ad_lver : N; ad_inp : N; ad_inp2 : N; ad_inp3 : N }.

(* what the calls deliver; the leading Z is the return value of the call *)
Inductive ainput :=
| IRead (rv : Z) (l : leader) (max_mbal : N)          (* 1692 paxos_lease_read *)
| ILsDisk (rv : Z) (rv_open : Z)                      (* 1774 lockspace_disk, 1783 open_disks_fd *)
| IHostInfo (rv : Z) (hs : hstatus) (now : N)         (* 1792 host_info; 1799 monotime.  When rv is not 0 hs is not
                                                         initialised: any value *)
| IDelta (rv : Z) (d : leader) (at_ : N)              (* 1814 delta_lease_leader_read; at_: the time at which the
                                                         record had this content (not known to the code) *)
| IDblock (rv : Z) (flags : N)                        (* 1900 read_dblock of the owner, first disk *)
| INow (now : N)                                      (* 1921 monotime *)
| ISleep (shutdown : bool) (rv : Z) (l : leader)      (* 1952-1966 sleep, external_shutdown, paxos_lease_leader_read *)
| IReread (rv : Z) (l : leader)                       (* 2020 paxos_lease_leader_read *)
| IBallot (rv : Z) (d : adblock)                      (* 2095 run_ballot *)
| IWrite (now : N) (rv : Z).                          (* 2126 monotime, 2149 write_new_leader *)

Inductive apc :=
| PRead
| PLsDisk (cur : leader) (mm : N)
| PHostInfo (cur : leader) (mm : N)
| PDelta (cur : leader) (mm : N) (hs : hstatus) (ws lt : N)
| PDblock (cur : leader) (mm : N)
| PNow (cur : leader) (mm : N) (hs : hstatus) (ws lt : N)
| PSleep (cur : leader) (mm : N) (hs : hstatus) (ws lt : N)
| PRetry (cur : leader) (our_mbal : N)
| PBallot (cur : leader) (our_mbal : N)
| PWrite (cur : leader) (d : adblock)
| PDone (rv : Z)
| PDivZero.                     (* 2008 max_mbal % 0 *)

Record astate := mkAs {
  as_pc : apc; as_ss : Z; as_align : Z; as_open : bool;
  as_ret : option leader }.      (* what was stored to *leader_ret *)

(* calls that write to the lease *)
Inductive aout :=
| OBallot (num_hosts next_lver mbal : N)    (* run_ballot(... num_hosts, next_lver, our_mbal) *)
| OCommit (l : leader).                     (* write_new_leader *)

Definition to_pc (s : astate) (p : apc) : astate := mkAs p (as_ss s) (as_align s) (as_open s) (as_ret s).
Definition done (s : astate) (rv : Z) : astate := to_pc s (PDone rv).
Definition done_ret (s : astate) (rv : Z) (l : leader) : astate :=
  mkAs (PDone rv) (as_ss s) (as_align s) (as_open s) (Some l).

(* 2025-2093: compare the leader read back with cur_leader *)
Definition check_leader (p : aparams) (s : astate) (cur tmp : leader) (mbal : N) : astate :=
  let next := l_lver cur + 1 in
  if l_lver tmp =? next then
    if (l_owner_id tmp =? a_host p) && (l_owner_generation tmp =? a_gen p)
    then done_ret s SANLK_OK tmp
    else done_ret s SANLK_ACQUIRE_OWNED tmp
  else if next <? l_lver tmp then to_pc s PRead
  else if negb (leader_eqb cur tmp) then to_pc s PRead
  else to_pc s (PBallot cur mbal).

(* 1982-2018: the run label *)
Definition at_run (p : aparams) (s : astate) (cur : leader) (mm : N) (copy : bool) : astate :=
  if negb (mm =? 0) && (l_max_hosts cur =? 0) then to_pc s PDivZero
  else
    let mbal := first_mbal mm (l_max_hosts cur) (a_host p) in
    if copy then check_leader p s cur cur mbal else to_pc s (PRetry cur mbal).

(* 1696-1698 *)
Definition leader_align (l : leader) : Z :=
  let a := align_size_from_flag (l_flags l) in
  if (a =? 0)%Z then sector_size_to_align_size_old (Z.of_N (l_sector_size l)) else a.

(* 1926: uint64_t subtraction; the int operand is converted to uint64_t *)
Definition sub64 (a b : N) : N := (a + 2 ^ 64 - b) mod 2 ^ 64.
Definition dead_seconds (p : aparams) (hs : hstatus) : N :=
  Z.to_N (calc_host_dead_seconds (Z.of_N (a_fire p)) (Z.of_N (hs_io_timeout hs))).

(* 2118-2147 *)
Definition new_leader (p : aparams) (cur : leader) (d : adblock) (now : N) : leader :=
  let fl := if ad_inp d =? a_host p
            then (if a_shared p then N.lor (l_flags cur) LFL_SHORT_HOLD
                  else N.ldiff (l_flags cur) LFL_SHORT_HOLD)
            else l_flags cur in
  {| l_magic := l_magic cur; l_version := l_version cur; l_flags := fl;
     l_sector_size := l_sector_size cur;
     l_num_hosts := if a_num_hosts p =? 0 then l_num_hosts cur else a_num_hosts p;
     l_max_hosts := l_max_hosts cur;
     l_owner_id := ad_inp d; l_owner_generation := ad_inp2 d; l_lver := ad_lver d;
     l_space_name := l_space_name cur; l_resource_name := l_resource_name cur;
     l_timestamp := ad_inp3 d; l_unused1 := l_unused1 cur; l_checksum := 0;
     l_unused2 := l_unused2 cur; l_io_timeout := l_io_timeout cur;
     l_write_id := a_host p; l_write_generation := a_gen p; l_write_timestamp := now |}.

(* one call returns; None: the input does not belong to the pending call *)
Definition astep (p : aparams) (s : astate) (i : ainput) : option (astate * list aout) :=
  match as_pc s, i with
  | PRead, IRead rv l mm =>
      Some ((if (rv <? 0)%Z then done s rv
      else if negb ((Z.of_N (l_sector_size l) =? as_ss s)%Z && (leader_align l =? as_align s)%Z)
      then mkAs PRead (Z.of_N (l_sector_size l)) (leader_align l) (as_open s) (as_ret s)
      else if a_force p then at_run p s l mm true
      else if negb (a_lver p =? 0) && negb (l_lver l =? a_lver p) then done s SANLK_ACQUIRE_LVER
      else if l_timestamp l =? LEASE_FREE then at_run p s l mm true
      else if (l_owner_id l =? a_host p) && (l_owner_generation l =? a_gen p) then at_run p s l mm true
      else if (l_owner_id l =? a_host p) && (l_owner_generation l <? a_gen p) then at_run p s l mm true
      else if as_open s then to_pc s (PHostInfo l mm) else to_pc s (PLsDisk l mm)), [])
  | PLsDisk cur mm, ILsDisk rv rvo =>
      Some ((if (rv <? 0)%Z then done s SANLK_ACQUIRE_LOCKSPACE
      else if (rvo <? 0)%Z then done s SANLK_ACQUIRE_IDDISK
      else mkAs (PHostInfo cur mm) (as_ss s) (as_align s) true (as_ret s)), [])
  | PHostInfo cur mm, IHostInfo rv hs now =>
      Some ((if (rv =? 0)%Z && negb (hs_last_check hs =? 0) && negb (hs_last_live hs =? 0) &&
         (hs_owner_id hs =? l_owner_id cur) && (hs_owner_generation hs =? l_owner_generation cur)
      then to_pc s (PDelta cur mm hs (hs_last_live hs) (hs_timestamp hs))
      else to_pc s (PDelta cur mm hs now 0)), [])
  | PDelta cur mm hs ws lt, IDelta rv d _ =>
      Some ((if (rv <? 0)%Z then done s rv
      else if l_timestamp d =? LEASE_FREE then at_run p s cur mm false
      else if negb (l_owner_id d =? l_owner_id cur) || (l_owner_generation cur <? l_owner_generation d)
      then at_run p s cur mm false
      else if lt =? 0 then to_pc s (PSleep cur mm hs ws (l_timestamp d))
      else if negb (l_timestamp d =? lt) ||
              (negb (hs_last_live hs =? 0) && (hs_last_check hs =? hs_last_live hs))
      then let s := mkAs (as_pc s) (as_ss s) (as_align s) (as_open s) (Some cur) in
           if negb (l_write_id cur =? l_owner_id cur) then to_pc s (PDblock cur mm)
           else done s SANLK_ACQUIRE_IDLIVE
      else to_pc s (PNow cur mm hs ws lt)), [])
  | PDblock cur mm, IDblock rv fl =>
      Some ((if (rv =? 0)%Z && has fl DBLOCK_FL_RELEASED then at_run p s cur mm false
      else done s SANLK_ACQUIRE_IDLIVE), [])
  | PNow cur mm hs ws lt, INow now =>
      Some ((if dead_seconds p hs <? sub64 now ws then at_run p s cur mm false
      else if a_nowait p then done s SANLK_ACQUIRE_OWNED_RETRY
      else to_pc s (PSleep cur mm hs ws lt)), [])
  | PSleep cur mm hs ws lt, ISleep sh rv l =>
      Some ((if sh then done s (-1)%Z
      else if (rv <? 0)%Z then done s rv
      else if negb (leader_eqb cur l) then to_pc s PRead
      else to_pc s (PDelta cur mm hs ws lt)), [])
  | PRetry cur mbal, IReread rv l =>
      Some ((if (rv <? 0)%Z then done s rv else check_leader p s cur l mbal), [])
  | PBallot cur mbal, IBallot rv d =>
      Some ((if (rv =? SANLK_DBLOCK_MBAL)%Z || (rv =? SANLK_DBLOCK_LVER)%Z
      then to_pc s (PRetry cur (mbal + l_max_hosts cur))
      else if (rv <? 0)%Z then done s rv
      else to_pc s (PWrite cur d)), [OBallot (l_num_hosts cur) (l_lver cur + 1) mbal])
  | PWrite cur d, IWrite now rv =>
      let nl := new_leader p cur d now in
      Some ((if (rv <? 0)%Z then done_ret s rv nl
      else if negb (l_owner_id nl =? a_host p) then done_ret s SANLK_ACQUIRE_OTHER nl
      else done_ret s SANLK_OK nl), [OCommit nl])
  | _, _ => None
  end.

(* 1682-1685 *)
Definition astart (ss align : Z) : astate :=
  mkAs (if (ss =? 0)%Z then PDone EINVAL_ else PRead) ss align false None.

(* a history: inputs newest first; None when some input did not fit *)
Fixpoint arun (p : aparams) (s0 : astate) (h : list ainput) : option (astate * list aout) :=
  match h with
  | [] => Some (s0, [])
  | i :: r =>
      match arun p s0 r with
      | Some (s, out) =>
          match astep p s i with
          | Some (s', o) => Some (s', o ++ out)
          | None => None
          end
      | None => None
      end
  end.

(* src/lockspace.c:295-329; found: the host_status entry of the lockspace, its
   max_hosts and its own io_timeout *)
Definition DEFAULT_MAX_HOSTS : N := 2000.
Definition ENOSPC_ : Z := (-28).
Definition host_info (sp : option (N * N * (N -> hstatus))) (host_id : N) : Z * option hstatus :=
  if (host_id =? 0) || (DEFAULT_MAX_HOSTS <? host_id) then (EINVAL_, None)
  else match sp with
       | None => (ENOSPC_, None)
       | Some (max_hosts, own_io, tab) =>
           if max_hosts <? host_id then (EINVAL_, None)
           else let hs := tab host_id in
                (0%Z, Some (if hs_io_timeout hs =? 0
                            then mkHs (hs_first_check hs) (hs_last_check hs) (hs_last_live hs)
                                      (hs_owner_id hs) (hs_owner_generation hs) (hs_timestamp hs) own_io
                            else hs))
       end.

(* ---- facts ---- *)
Lemma leader_eqb_eq a b : leader_eqb a b = true <-> a = b.
Proof.
  unfold leader_eqb. rewrite !andb_true_iff, !N.eqb_eq.
  unfold leaders_match. rewrite !andb_true_iff, !N.eqb_eq, !bytes_eqb_eq.
  split.
  - intuition. destruct a, b; cbn in *; subst; reflexivity.
  - intros ->. intuition.
Qed.

Definition next_is_run (pc : apc) (cur : leader) : Prop :=
  exists mb, pc = PRetry cur mb \/ pc = PBallot cur mb.

Lemma check_leader_pc p s cur tmp mb :
  let s' := check_leader p s cur tmp mb in
  as_pc s' = PRead \/ (exists rv, as_pc s' = PDone rv) \/
  (as_pc s' = PBallot cur mb /\ tmp = cur).
Proof.
  cbv zeta. unfold check_leader, done_ret, to_pc.
  repeat match goal with
         | |- context [if ?b then _ else _] => destruct b eqn:?; cbn [as_pc]; eauto
         end.
  right; right. split; auto. symmetry. apply leader_eqb_eq.
  destruct (leader_eqb cur tmp); cbn in *; congruence.
Qed.

Lemma at_run_pc p s cur mm copy :
  let s' := at_run p s cur mm copy in
  as_pc s' = PRead \/ (exists rv, as_pc s' = PDone rv) \/ as_pc s' = PDivZero \/
  (next_is_run (as_pc s') cur).
Proof.
  cbv zeta. unfold at_run, next_is_run.
  destruct (negb (mm =? 0) && (l_max_hosts cur =? 0)); [right; right; left; reflexivity|].
  destruct copy.
  - destruct (check_leader_pc p s cur cur (first_mbal mm (l_max_hosts cur) (a_host p)))
      as [H|[H|(H & _)]]; cbn in H |- *; eauto 8.
  - right; right; right. cbn. eauto.
Qed.

Lemma sub64_exact a b : b <= a -> a < 2 ^ 64 -> sub64 a b = a - b.
Proof.
  intros. unfold sub64. replace (a + 2 ^ 64 - b) with (a - b + 1 * 2 ^ 64) by lia.
  rewrite N.mod_add by discriminate. apply N.mod_small. lia.
Qed.

(* the competition in progress is for the version after cur *)
Definition competing (pc : apc) (cur : leader) : Prop :=
  (exists mb, pc = PRetry cur mb) \/ (exists mb, pc = PBallot cur mb) \/ (exists d, pc = PWrite cur d).

(* the states in which cur_leader is known *)
Definition cur_of (pc : apc) : option leader :=
  match pc with
  | PLsDisk c _ | PHostInfo c _ | PDelta c _ _ _ _ | PDblock c _ | PNow c _ _ _ _
  | PSleep c _ _ _ _ | PRetry c _ | PBallot c _ | PWrite c _ => Some c
  | _ => None
  end.

(* the newest successful read of the whole lease *)
Fixpoint last_read (h : list ainput) : option leader :=
  match h with
  | [] => None
  | IRead rv l _ :: r => if (rv <? 0)%Z then last_read r else Some l
  | _ :: r => last_read r
  end.

Lemma at_run_cur p s cur mm copy c :
  cur_of (as_pc (at_run p s cur mm copy)) = Some c -> c = cur.
Proof.
  destruct (at_run_pc p s cur mm copy) as [H|[(rv & H)|[H|(mb & [H|H])]]]; rewrite H; cbn; congruence.
Qed.

Lemma check_leader_cur p s cur tmp mb c :
  cur_of (as_pc (check_leader p s cur tmp mb)) = Some c -> c = cur.
Proof.
  destruct (check_leader_pc p s cur tmp mb) as [H|[(rv & H)|(H & _)]]; rewrite H; cbn; congruence.
Qed.

Ltac aifs :=
  repeat match goal with
         | H : Some _ = Some _ |- _ => injection H as <-
         | H : context [if ?b then _ else _] |- _ => destruct b eqn:?
         | |- context [if ?b then _ else _] => destruct b eqn:?
         end.

(* cur_leader is always the record of the newest successful read *)
Lemma astep_cur p s i s' o c :
  astep p s i = Some (s', o) -> cur_of (as_pc s') = Some c ->
  (exists mm rv, i = IRead rv c mm /\ (0 <= rv)%Z) \/
  (cur_of (as_pc s) = Some c /\ forall rv l mm, i <> IRead rv l mm).
Proof.
  intros H C. unfold astep in H.
  destruct (as_pc s) eqn:P; destruct i; try discriminate H;
    injection H as H <-; subst s';
    repeat match goal with
           | C : cur_of (as_pc (if ?b then _ else _)) = _ |- _ => destruct b eqn:?
           | C : cur_of (as_pc (let s := _ in if ?b then _ else _)) = _ |- _ => cbv zeta in C
           end;
    first [ apply at_run_cur in C; subst c
          | apply check_leader_cur in C; subst c
          | cbn in C; discriminate C
          | cbn in C; injection C as <- ];
    cbn;
    first [ left; do 2 eexists; split; [reflexivity | lia]
          | right; split; [reflexivity | intros; discriminate] ].
Qed.

Lemma arun_cur p ss al h s out c :
  arun p (astart ss al) h = Some (s, out) -> cur_of (as_pc s) = Some c ->
  last_read h = Some c.
Proof.
  revert s out c. induction h as [|i r IH]; intros s out c H C; cbn [arun] in H.
  - injection H as <- <-. unfold astart in C. cbn in C. destruct (ss =? 0)%Z; discriminate C.
  - destruct (arun p (astart ss al) r) as [(s1, o1)|] eqn:E; [|discriminate H].
    destruct (astep p s1 i) as [(s2, o2)|] eqn:E2; [|discriminate H]. injection H as <- <-.
    destruct (astep_cur _ _ _ _ _ _ E2 C) as [(mm & rv & -> & Hr)|(C1 & N1)].
    + cbn. destruct (rv <? 0)%Z eqn:X; [lia|reflexivity].
    + specialize (IH _ _ _ eq_refl C1). destruct i; cbn; auto. exfalso. eapply N1; reflexivity.
Qed.
