(* Host id (delta) leases: delta_lease_acquire, delta_lease_renew,
   delta_lease_release, src/delta_lease.c:328-829, and the loop of
   lockspace_thread that calls them, src/lockspace.c:868-1010.

   One sector (one host id) and any number of hosts that want it.  Time is in
   seconds.  A disk operation is issued, takes effect at one moment between issue
   and return, and returns; an operation that is pending may be overtaken by any
   number of operations of other hosts, but it is over (has taken effect and has
   returned) less than c_d i seconds (for host i) after it was issued.  The code between two
   operations takes no time of its own (it is counted in c_d).  sleep may take
   longer than asked for.

   Simplifications.
   - The record is reduced to name, generation, timestamp, io_timeout; owner_id is
     always the host id of the sector; the other fields are constant.
   - A host's name is its number in the model, unless 0.  This is one start of the
     daemon: by default the name contains a uuid generated at start
     (src/main.c setup_host_name), so a restarted daemon is another host.
   - monotime() in a new record is a value that was not used before (a host writes
     its records in different seconds); only equality of timestamps with each other
     and with 0 is used.
   - delta_lease_release is called only when the last renewal succeeded
     (lockspace.c:1013); it does not read the lease first.  In the model it is
     called only if the host has not been silent for the dead time.
   - An operation that fails either took effect or never will. *)
From Coq Require Import List NArith ZArith Lia Bool Arith ZifyBool ZifyN.
From Verif Require Import Timeouts.
Import ListNotations.
Open Scope N_scope.

Record rcd := mkRc { n_name : N; n_gen : N; n_ts : N; n_io : N }.

(* memcmp of two records *)
Definition rcd_eqb (a b : rcd) : bool :=
  (n_name a =? n_name b) && (n_gen a =? n_gen b) && (n_ts a =? n_ts b) && (n_io a =? n_io b).

Lemma rcd_eqb_eq a b : rcd_eqb a b = true <-> a = b.
Proof.
  unfold rcd_eqb. rewrite !andb_true_iff, !N.eqb_eq. destruct a, b; cbn. split.
  - intuition congruence.
  - intros H. injection H as -> -> -> ->. auto.
Qed.

Record cfg := mkCfg {
  c_hosts : list N;
  c_d : N -> N;         (* every disk operation of a host is over in less than this *)
  c_fire : N;           (* com.watchdog_fire_timeout *)
  c_io : N -> N }.      (* sp->io_timeout of each host *)

(* a disk operation in progress; i_re: when the read took effect on which the
   decision to write was based (ghost) *)
Record iop := mkIop { i_t : N; i_w : option rcd; i_re : N; i_eff : option (N * rcd) }.

(* where the lockspace thread is *)
Inductive kont :=
| KOff                                      (* not started, or join failed *)
| KDead                                     (* crashed *)
| K1                                        (* delta_acquire_begin read, 345 *)
| KW (l1 : rcd) (r1 oio until : N)          (* waiting, 412-419; r1: when l1 was read (ghost) *)
| K2 (l1 : rcd) (r1 oio : N)                (* delta_acquire_wait read, 421 *)
| K3 (nl : rcd) (oio : N)                   (* write, 467 *)
| KS (nl : rcd) (until : N)                 (* waiting, 479-486 *)
| K4 (nl : rcd)                             (* delta_acquire_check read, 488 *)
| KOwn (l : rcd) (ok : bool)                (* joined; ok: delta_result == SANLK_OK *)
| KR (l : rcd) (ok : bool)                  (* read in delta_lease_renew, 634 *)
| KRW (nl l : rcd)                          (* write in delta_lease_renew, 740 *)
| KRel.                                     (* write in delta_lease_release, 813 *)

Record hst := mkHst {
  h_k : kont; h_op : option iop;
  (* ghost: *)
  h_held : bool;      (* the check read of the join found the own record; not released since *)
  h_alive : bool;     (* never silent for the dead time since then *)
  h_lw : N;           (* when the last write of this host took effect *)
  h_rec : rcd }.      (* what it was *)

Record dst := mkDst {
  d_now : N; d_clk : N; d_disk : rcd; d_h : N -> hst;
  d_succ : list (N * N) }.    (* ghost: successful joins (host, generation), newest first *)

(* 356-364 *)
Definition other_io (c : cfg) (i : N) (v : rcd) : N := if n_io v =? 0 then c_io c i else n_io v.
(* 401-407 *)
Definition delay (c : cfg) (oio : N) : N :=
  let dead := Z.to_N (calc_host_dead_seconds (Z.of_N (c_fire c)) (Z.of_N oio)) in
  let large := Z.to_N (calc_id_renewal_seconds (Z.of_N oio)) + 6 * oio in
  if dead <? large then large else dead.
(* 442-448: the record written by a join *)
Definition new_record (c : cfg) (i ts : N) (v : rcd) : rcd :=
  mkRc i (n_gen v + 1) ts (N.land (c_io c i) 255).
(* 709-724: the record written by a renewal *)
Definition renewed (c : cfg) (i ts : N) (v : rcd) : rcd :=
  mkRc (n_name v) (n_gen v) ts
       (if n_io v =? c_io c i then n_io v else N.land (c_io c i) 255).
(* 799-800 *)
Definition freed (l : rcd) : rcd := mkRc (n_name l) (n_gen l) 0 (n_io l).

Definition upd (f : N -> hst) (i : N) (h : hst) : N -> hst := fun j => if j =? i then h else f j.

Definition set_k (h : hst) (k : kont) (op : option iop) : hst :=
  mkHst k op (h_held h) (h_alive h) (h_lw h) (h_rec h).
Definition rd (now : N) : option iop := Some (mkIop now None 0 None).
Definition wr (now re : N) (w : rcd) : option iop := Some (mkIop now (Some w) re None).

Inductive ev :=
| ETick
| EStart (i : N)
| EEff (i : N)         (* the pending operation takes effect *)
| ERet (i : N)         (* it returns and the code runs on *)
| EErr (i : N)         (* it fails *)
| EWake (i : N)        (* sleep is over *)
| ERenew (i : N)
| ERelease (i : N)
| ECrash (i : N).

Definition in_time (c : cfg) (now i : N) (h : hst) : bool :=
  match h_op h with Some o => now <? i_t o + c_d c i | None => true end.

Definition ev_host (e : ev) : option N :=
  match e with
  | ETick => None
  | EStart i | EEff i | ERet i | EErr i | EWake i | ERenew i | ERelease i | ECrash i => Some i
  end.

Definition put_host (s : dst) (i : N) (h : hst) : dst :=
  mkDst (d_now s) (d_clk s) (d_disk s) (upd (d_h s) i h) (d_succ s).
Definition put_host_clk (s : dst) (i : N) (h : hst) : dst :=
  mkDst (d_now s) (d_clk s + 1) (d_disk s) (upd (d_h s) i h) (d_succ s).

(* the code that runs when an operation of host i returned the value v which was
   on the disk at time te *)
Definition code (c : cfg) (s : dst) (i : N) (h : hst) (te : N) (v : rcd) : dst :=
  let now := d_now s in
  let join oio := put_host_clk s i (set_k h (K3 (new_record c i (d_clk s) v) oio)
                                          (wr now te (new_record c i (d_clk s) v))) in
  match h_k h with
  | K1 =>
      let oio := other_io c i v in
      if (n_ts v =? 0) || (n_name v =? i) then join oio
      else put_host s i (set_k h (KW v te oio (now + delay c oio)) None)
  | K2 l1 r1 oio =>
      if rcd_eqb l1 v || (n_ts v =? 0) then join oio
      else put_host s i (set_k h KOff None)
  | K3 nl oio => put_host s i (set_k h (KS nl (now + 2 * oio)) None)
  | K4 nl =>
      if rcd_eqb nl v then put_host s i (set_k h (KOwn nl true) None)
      else put_host s i (set_k h KOff None)
  | KR l ok =>
      if negb ((n_name v =? n_name l) && (n_gen v =? n_gen l)) || (ok && negb (rcd_eqb v l))
      then put_host s i (set_k h (KOwn l false) None)
      else put_host_clk s i (set_k h (KRW (renewed c i (d_clk s) v) l)
                                     (wr now te (renewed c i (d_clk s) v)))
  | KRW nl l => put_host s i (set_k h (KOwn nl true) None)
  | KRel => put_host s i (set_k h KOff None)
  | k => put_host s i (set_k h k None)
  end.

Definition estep (c : cfg) (s : dst) (e : ev) : option dst :=
  let now := d_now s in
  match e with
  | ETick =>
      if forallb (fun i => in_time c (now + 1) i (d_h s i)) (c_hosts c)
      then Some (mkDst (now + 1) (d_clk s) (d_disk s)
                  (fun i => let h := d_h s i in
                     mkHst (h_k h) (h_op h) (h_held h)
                           (h_alive h && (now + 1 <? h_lw h + delay c (c_io c i))) (h_lw h) (h_rec h))
                  (d_succ s))
      else None
  | EStart i =>
      let h := d_h s i in
      match h_k h, h_op h with
      | KOff, None | KDead, None =>
          Some (put_host s i (mkHst K1 (rd now) false false (h_lw h) (h_rec h)))
      | _, _ => None
      end
  | EEff i =>
      let h := d_h s i in
      match h_op h with
      | Some (mkIop t None re None) =>
          let v := d_disk s in
          let op := Some (mkIop t None re (Some (now, v))) in
          match h_k h with
          | K4 nl =>
              if rcd_eqb nl v
              then Some (mkDst now (d_clk s) v
                           (upd (d_h s) i (mkHst (h_k h) op true (now <? h_lw h + delay c (c_io c i)) (h_lw h) (h_rec h)))
                           ((i, n_gen nl) :: d_succ s))
              else Some (put_host s i (set_k h (h_k h) op))
          | k => Some (put_host s i (set_k h k op))
          end
      | Some (mkIop t (Some w) re None) =>
          let op := Some (mkIop t (Some w) re (Some (now, w))) in
          Some (mkDst now (d_clk s) w (upd (d_h s) i (mkHst (h_k h) op (h_held h) (h_alive h) now w)) (d_succ s))
      | _ => None
      end
  | ERet i =>
      let h := d_h s i in
      match h_op h with
      | Some (mkIop t w re (Some (te, v))) => Some (code c s i h te v)
      | _ => None
      end
  | EErr i =>
      let h := d_h s i in
      match h_op h with
      | Some _ =>
          let k := match h_k h with
                   | KR l ok => KOwn l false
                   | KRW nl l => KOwn l false
                   | KDead => KDead
                   | _ => KOff
                   end in
          Some (put_host s i (set_k h k None))
      | None => None
      end
  | EWake i =>
      let h := d_h s i in
      match h_k h with
      | KW l1 r1 oio until =>
          if until <=? now then Some (put_host s i (set_k h (K2 l1 r1 oio) (rd now))) else None
      | KS nl until =>
          if until <=? now then Some (put_host s i (set_k h (K4 nl) (rd now))) else None
      | _ => None
      end
  | ERenew i =>
      let h := d_h s i in
      match h_k h with
      | KOwn l ok => Some (put_host s i (set_k h (KR l ok) (rd now)))
      | _ => None
      end
  | ERelease i =>
      let h := d_h s i in
      match h_k h with
      | KOwn l true =>
          if h_alive h
          then Some (put_host s i (mkHst KRel (wr now now (freed l)) false false (h_lw h) (h_rec h)))
          else None
      | _ => None
      end
  | ECrash i =>
      let h := d_h s i in
      let op := match h_op h with
                | Some (mkIop t (Some w) re None) => h_op h
                | _ => None
                end in
      Some (put_host s i (set_k h KDead op))
  end.

Definition ev_ok (c : cfg) (e : ev) : bool :=
  match ev_host e with None => true | Some i => existsb (N.eqb i) (c_hosts c) end.

Definition dinit (r : rcd) (t : N) : dst :=
  mkDst t (n_ts r + 1) r (fun _ => mkHst KOff None false false 0 (mkRc 0 0 0 0)) [].

Inductive dreach (c : cfg) (r : rcd) (t : N) : dst -> Prop :=
| dreach_init : dreach c r t (dinit r t)
| dreach_step s e s' : dreach c r t s -> ev_ok c e = true -> estep c s e = Some s' -> dreach c r t s'.

(* a run of given events *)
Fixpoint drun (c : cfg) (s : dst) (l : list ev) : option dst :=
  match l with
  | [] => Some s
  | e :: r =>
      if ev_ok c e then
        match estep c s e with Some s' => drun c s' r | None => None end
      else None
  end.

Lemma drun_reach c r t l s s' : dreach c r t s -> drun c s l = Some s' -> dreach c r t s'.
Proof.
  revert s. induction l as [|e l IH]; intros s R H; cbn in H.
  - injection H as <-. auto.
  - destruct (ev_ok c e) eqn:O; [|discriminate H].
    destruct (estep c s e) as [s1|] eqn:E; [|discriminate H].
    apply (IH s1); [|exact H]. exact (dreach_step c r t s e s1 R O E).
Qed.

Lemma delay_eq c oio : delay c oio = 8 * oio + c_fire c.
Proof.
  unfold delay, calc_host_dead_seconds, calc_id_renewal_seconds. cbv zeta.
  match goal with |- (if ?b then _ else _) = _ => destruct b eqn:E end; lia.
Qed.
