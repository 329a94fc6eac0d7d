(* sanlk-reset: the command that asks another host to reset and waits until it has been reset.
   reset/sanlk_reset.c: reset_fail 299-384, reset_done 386-560, get_events 562-604, main loop 909-937.
   One round of the main loop is one step.  Times of one reset_done are one number; what sanlock_get_hosts and
   sanlock_get_event return are inputs.  Messages are left out. *)
From Coq Require Import List NArith ZArith Lia Bool.
Import ListNotations.

(* lines 125-126 *)
Definition NATIVE_TIMEOUT : Z := 90.
Definition NATIVE_RENEWAL : Z := 70.
(* sanlock.h: the host states; sanlk_reset.h:13 *)
Inductive hstate := HUnknown | HFree | HLive | HFail | HDead.
Definition is_dead_state (h : hstate) : bool := match h with HDead => true | _ => false end.
Definition is_free_state (h : hstate) : bool := match h with HFree => true | _ => false end.
Definition resetting_bit (ev : N) : bool := N.testbit ev 1.

(* the arrays ls_*[i], lines 142-152 *)
Record ls := mkLS {
  l_used : bool;          (* ls_names[i] != NULL *)
  l_host : N;             (* ls_hostids *)
  l_beg_ts : Z; l_beg_local : Z; l_ts : Z; l_flags : hstate;
  l_resetting : bool; l_dead : bool; l_free : bool; l_renewals : N }.

Record tst := mkT { t_ls : list ls; t_native : bool; t_wdff : bool }.

(* what sanlock_get_hosts says about the host *)
Record rep := mkRep { rp_ts : Z; rp_state : hstate; rp_io : Z }.

(* reset_done 401-439, one lockspace *)
Definition poll_ls (r : option rep) (l : ls) : ls :=
  if l_used l then
    match r with
    | None => l
    | Some r =>
        mkLS true (l_host l) (l_beg_ts l) (l_beg_local l) (rp_ts r) (rp_state r) (l_resetting l) (l_dead l) (l_free l)
          (if negb (l_ts l =? 0)%Z && negb (l_ts l =? rp_ts r)%Z then (l_renewals l + 1)%N else l_renewals l)
    end
  else l.
(* 432-436 *)
Definition native_off (r : option rep) (l : ls) : bool :=
  l_used l && match r with None => false | Some r => negb (rp_ts r =? 0)%Z && negb (rp_io r =? 10)%Z end.

(* 448-494, one lockspace: begin of the resetting, and the verdict *)
Inductive nverdict := NNone | NDone | NFail.
Definition u64 (z : Z) : Z := (z mod 2 ^ 64)%Z.
Definition native_mark (now : Z) (l : ls) : ls :=
  if l_used l && l_resetting l && (l_beg_local l =? 0)%Z
  then mkLS true (l_host l) (l_ts l) now (l_ts l) (l_flags l) (l_resetting l) (l_dead l) (l_free l) (l_renewals l)
  else l.
Definition native_verdict (now : Z) (l : ls) : nverdict :=
  if l_used l && l_resetting l && (NATIVE_TIMEOUT <? u64 (now - l_beg_local l))%Z
  then if (NATIVE_RENEWAL <? u64 (l_ts l - l_beg_ts l))%Z then NFail else NDone
  else NNone.

(* 527-557, one lockspace *)
Definition status_ls (l : ls) : ls :=
  if l_used l
  then mkLS true (l_host l) (l_beg_ts l) (l_beg_local l) (l_ts l) (l_flags l) (l_resetting l)
         (l_dead l || is_dead_state (l_flags l)) (l_free l || is_free_state (l_flags l)) (l_renewals l)
  else l.
Definition status_done (resource_mode : bool) (l : ls) : bool :=
  l_used l && (if resource_mode then l_dead l else l_dead l && l_resetting l).

Fixpoint imap {A B C} (f : A -> B -> C) (r : nat -> A) (k : nat) (l : list B) : list C :=
  match l with [] => [] | x :: l => f (r k) x :: imap f r (S k) l end.

Definition is_ndone (v : nverdict) : bool := match v with NDone => true | _ => false end.
Definition is_nfail (v : nverdict) : bool := match v with NFail => true | _ => false end.

(* reset_done *)
Definition reset_done (rm : bool) (now : Z) (reps : nat -> option rep) (s : tst) : tst * bool :=
  let lss1 := imap poll_ls reps 0 (t_ls s) in
  let native := t_native s && negb (existsb (fun b => b) (imap native_off reps 0 (t_ls s))) in
  let lss2 := if native then map (native_mark now) lss1 else lss1 in
  let vs := if native then map (native_verdict now) lss2 else [] in
  if t_wdff s || existsb is_nfail vs then (mkT lss2 native true, false)
  else
    let lss3 := map status_ls lss2 in
    (mkT lss3 native false, existsb is_ndone vs || existsb (status_done rm) lss3).

(* reset_fail 299-384: per lockspace, counts of cmd_fail and cmd_wait *)
Definition ls_fails (now begin : Z) (l : ls) : bool :=
  l_used l && (if l_resetting l then (300 <? u64 (now - begin))%Z else l_dead l || l_free l || (4 <=? l_renewals l)%N).
Definition ls_waits (now begin : Z) (l : ls) : bool := l_used l && negb (ls_fails now begin l).
Definition reset_fail (now begin : Z) (s : tst) : bool :=
  t_wdff s || (existsb (ls_fails now begin) (t_ls s) && negb (existsb (ls_waits now begin) (t_ls s))).

(* get_events 562-604 and 924-936: an event in lockspace i from host h, or the loss of the connection *)
Inductive tev := TGot (i : nat) (from ev : N) | TLost (i : nat).
Definition upd (i : nat) (f : ls -> ls) (l : list ls) : list ls :=
  (fix go k l := match l with [] => [] | x :: r => (if Nat.eqb k i then f x else x) :: go (S k) r end) O l.
Definition set_resetting (l : ls) : ls :=
  mkLS (l_used l) (l_host l) (l_beg_ts l) (l_beg_local l) (l_ts l) (l_flags l) true (l_dead l) (l_free l) (l_renewals l).
Definition unregister (l : ls) : ls :=
  mkLS false (l_host l) (l_beg_ts l) (l_beg_local l) (l_ts l) (l_flags l) (l_resetting l) (l_dead l) (l_free l) (l_renewals l).
Definition tevent (s : tst) (e : tev) : tst :=
  match e with
  | TGot i from ev =>
      mkT (upd i (fun l => if l_used l && (from =? l_host l)%N && resetting_bit ev then set_resetting l else l) (t_ls s)) (t_native s) (t_wdff s)
  | TLost i => mkT (upd i unregister (t_ls s)) (t_native s) (t_wdff s)
  end.

(* one round of the main loop 909-937 *)
Inductive outcome := Success | Failure | Go (s : tst).
Record rin := mkR { ri_now : Z; ri_reps : nat -> option rep; ri_evs : list tev }.
Definition round (rm : bool) (begin : Z) (s : tst) (r : rin) : outcome :=
  let '(s1, done) := reset_done rm (ri_now r) (ri_reps r) s in
  if done then Success
  else if reset_fail (ri_now r) begin s1 then Failure
  else Go (fold_left tevent (ri_evs r) s1).

(* the start of the main loop: the lockspaces where the event was set, with the host ids given *)
Definition start_ls (h : N) : ls := mkLS true h 0 0 0 HUnknown false false false 0.
Definition tstart (hosts : list N) : tst := mkT (map start_ls hosts) true false.
