(* fence_sanlockd: its options, the fifo by which "fence_sanlockd -s" gives them to a waiting daemon, and
   the start up to the main loop.  fence_sanlock/fence_sanlockd.c:294-356 (wait_options), 358-383
   (send_options), 537-600 (options), 602-725 (start), 930-941 (its undoing).
   Results of calls are inputs; the main loop is FenceD.v, the lock file OneDaemon.v.  A text has no 0.
   "%s" splits at white space as in RegTable.v. *)
From Coq Require Import List String Ascii NArith ZArith Bool Arith Lia DecimalString.
From Verif Require Import RegTable.
Import ListNotations.
Open Scope string_scope.
Open Scope list_scope.
Open Scope Z_scope.

Definition MAX_HOSTS : Z := 128.
(* "%d" of what is not negative *)
Definition dec (n : Z) : string := NilEmpty.string_of_uint (Nat.to_uint (Z.to_nat n)).
Definition print_int (n : Z) : string := if n <? 0 then ("-" ++ dec (- n))%string else dec n.
(* atoi *)
Fixpoint digits (s : string) (a : Z) : Z :=
  match s with
  | String c r => let k := Z.of_nat (nat_of_ascii c) in if (48 <=? k) && (k <=? 57) then digits r (a * 10 + (k - 48)) else a
  | EmptyString => a
  end.
Definition atoi (s : string) : Z :=
  match skip s with String c r => if Nat.eqb (nat_of_ascii c) 45 then - digits r 0 else if Nat.eqb (nat_of_ascii c) 43 then digits r 0 else digits (String c r) 0 | EmptyString => 0 end.

(* 372: at most PATH_MAX - 2 characters *)
Definition line (path : string) (id : Z) : string := substring 0 4094 ("-p " ++ path ++ " -i " ++ print_int id)%string.

(* 321: four words *)
Definition scan4 (s : string) : option (string * string * string * string) :=
  let (a, s) := word (skip s) in let (b, s) := word (skip s) in let (c, s) := word (skip s) in let (d, _) := word (skip s) in
  if (d =? "")%string then None else Some (a, b, c, d).
(* 294-356 behind the read; None: mkfifo, open or read failed *)
Definition wait_options (l : option string) : option (string * Z) :=
  match l with None => None | Some l =>
  match scan4 l with
  | None => None
  | Some (k1, v1, k2, v2) =>
      if negb (k1 =? "-p")%string || negb (k2 =? "-i")%string then None
      else let path := substring 0 4095 v1 in let id := atoi v2 in
      if (id =? 0) || (MAX_HOSTS <? id) then None
      else if (path =? "")%string then None
      else Some (path, id)
  end end.

(* 537-600, -w and -s not together; id 0 and path "" when not given *)
Inductive task := Usage | Send (l : string) | Daemon (waits : bool).
Definition options (waits sends : bool) (path : string) (id : Z) : task :=
  if MAX_HOSTS <? id then Usage
  else if waits && sends then Usage
  else if negb waits && ((id =? 0) || (path =? "")%string) then Usage
  else if sends then Send (line path id)
  else Daemon waits.

(* 602-725 *)
Inductive call := Lock | Signals | Wait | Connect | WdReg | RefSet | SanReg | Killpath | Restrict | Align | AddLs | Config | Acquire | Live
  | Release | RemLs | RefClear | Unlink.
Inductive outcome := Running | Exit (rv : Z).
Definition pre (c : call) (k : list call * outcome) : list call * outcome := (c :: fst k, snd k).
Definition out (rv : Z) : list call * outcome := ([], Exit rv).
Definition out_lockfile (rv : Z) := pre Unlink (out rv).
Definition out_refcount (rv : Z) := pre RefClear (out_lockfile rv).
Definition out_lockspace (rv : Z) := pre RemLs (out_refcount rv).
Definition out_release (rv : Z) := pre Release (out_lockspace rv).
Definition start (R : call -> Z) (waits : bool) : list call * outcome :=
  pre Lock (if R Lock <? 0 then out (R Lock) else
  pre Signals (if R Signals <? 0 then out_lockfile (R Signals) else
  let rest rv :=          (* rv is what the last call left in rv *)
    pre Connect (if R Connect <? 0 then out_lockfile rv else
    pre WdReg (if R WdReg <? 0 then out_lockfile (R WdReg) else
    pre RefSet (if R RefSet <? 0 then out_lockfile (R RefSet) else
    pre SanReg (if R SanReg <? 0 then out_refcount (R RefSet) else
    pre Killpath (if R Killpath <? 0 then out_refcount (R Killpath) else
    pre Restrict (if R Restrict <? 0 then out_refcount (R Restrict) else
    pre Align (if R Align <? 0 then out_refcount (R Restrict) else
    pre AddLs (if R AddLs <? 0 then out_refcount (R AddLs) else
    pre Config (if R Config <? 0 then out_lockspace (R Config) else
    pre Acquire (if R Acquire <? 0 then out_lockspace (R Acquire) else
    pre Live (if R Live <? 0 then out_release (R Live) else ([], Running)))))))))))) in
  if waits then pre Wait (if R Wait <? 0 then out_lockfile (R Wait) else rest (R Wait)) else rest (R Signals))).

(* 660, 669, 700: sprintf into sanlk_disk.path; 701: an int *)
Definition SANLK_PATH_LEN : nat := 1024.
Definition path_fits (path : string) : bool := Nat.ltb (String.length path) SANLK_PATH_LEN.
Definition lease_offset (id align : Z) : option Z := let o := id * align in if (- 2 ^ 31 <=? o) && (o <? 2 ^ 31) then Some o else None.
