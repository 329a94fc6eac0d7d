(* The start of the sanlock daemon and the place where clients meet it: src/env.c:14-34, src/main.c:1373-1418
   (setup_listener), 1509-1593 (setup_limits, setup_groups, setup_uid_gid, setup_signals), 1719-1822 (do_daemon),
   src/sanlock_sock.c:21-28, src/client.c:43-71 (connect_socket), src/lockfile.c:57.
   A system call or a function of another file is one call with a result; a result below 0 is its failure.
   Calls whose result nothing depends on (initgroups, logging, priorities, host name) are left out. *)
From Coq Require Import List String Ascii ZArith Bool Arith Lia.
Import ListNotations.
Open Scope string_scope.
Open Scope list_scope.
Open Scope Z_scope.

Definition environ := string -> option string.
(* env.c:14-23 *)
Definition env_get (e : environ) (key def : string) : string := match e key with Some v => v | None => def end.
(* env.c:25-34 *)
Definition env_get_bool (e : environ) (key : string) (def : bool) : bool := match e key with Some v => (v =? "1")%string | None => def end.
(* sanlock_internal.h:48-54 *)
Definition RUN_DIR := "SANLOCK_RUN_DIR".
Definition DEFAULT_DIR := "/run/sanlock".
Definition PRIVILEGED := "SANLOCK_PRIVILEGED".
(* main.c:1724-1725 *)
Definition daemon_dir (e : environ) : string := env_get e RUN_DIR DEFAULT_DIR.
Definition daemon_priv (e : environ) : bool := env_get_bool e PRIVILEGED true.
(* sanlock_sock.c:23-27: sun_path has 108 bytes, snprintf is told 107 and writes one 0 *)
Definition socket_path (dir : string) : string := substring 0 106 (dir ++ "/" ++ "sanlock.sock")%string.
(* lockfile.c:57; PATH_MAX is 4096 *)
Definition lock_path (dir : string) : string := substring 0 4095 (dir ++ "/" ++ "sanlock.pid")%string.
(* client.c:47-57: the directory is kept from the first call; cache, environment -> cache, path *)
Definition client_path (cache : option string) (e : environ) : option string * string :=
  let d := match cache with Some d => d | None => env_get e RUN_DIR DEFAULT_DIR end in (Some d, socket_path d).

(* ---- do_daemon ---- *)
Inductive call := Daemonize | Memlock | Rtprio | Core | Helper | Alloc | AddHelper | Signals | LockFile | Setgid | Setuid | Dumpable
  | Pool | Socket | UnlinkSock | Bind | Chmod | Chown | Listen | AddListener | CloseSock | Tokens | Efd | MainLoop | CloseTokens | PoolFree | CloseLock.
Inductive ending := Exit (status : Z) | Return (rv : Z).
(* a call and what is done when it fails: None, nothing *)
Definition step := (call * option (list call * ending))%type.
Definition must (c : call) (cleanup : list call) (e : ending) : step := (c, Some (cleanup, e)).
Definition may (c : call) : step := (c, None).
Fixpoint go (R : call -> Z) (l : list step) (fin : list call * ending) : list call * ending :=
  match l with
  | [] => fin
  | (c, f) :: l =>
      match f with
      | Some (cl, e) => if R c <? 0 then (c :: cl, e) else (c :: fst (go R l fin), snd (go R l fin))
      | None => (c :: fst (go R l fin), snd (go R l fin))
      end
  end.
Definition when (b : bool) (l : list step) : list step := if b then l else [].
(* 1815-1821 *)
Definition out_threads := [PoolFree; CloseLock].
(* debug: -D; users: -U and -G both given *)
Definition before_lock (debug priv : bool) (R : call -> Z) : list step :=
  when (negb debug) [must Daemonize [] (Exit 1)]                                                       (* 1730-1736 *)
  ++ when priv [must Memlock [] (Exit 1); must Rtprio [] (Exit 1); must Core [] (Exit 1)]              (* 1514-1533 *)
  ++ [may Helper;                                                                                      (* 1740 *)
      must Alloc [] (Return (R Alloc));                                                                (* 1749-1751 *)
      must AddHelper [] (Return (R Alloc));                                                            (* 1753-1755: rv is that of 1749 *)
      must Signals [] (Exit 1);                                                                        (* 1758 *)
      must LockFile [] (Return (R LockFile))].                                                         (* 1771-1776 *)
Definition drop (priv users : bool) : list step := when (priv && users) [may Setgid; may Setuid; may Dumpable]. (* 1780, 1553-1573 *)
Definition listener (R : call -> Z) : list step :=
  [must Pool [CloseLock] (Return (R Pool));                                                            (* 1793-1795 *)
   must Socket out_threads (Return (R Socket));                                                        (* 1382-1384, 1797-1799 *)
   may UnlinkSock;                                                                                     (* 1386 *)
   must Bind (CloseSock :: out_threads) (Return (-1));                                                 (* 1387-1389, 1415-1417 *)
   must Chmod (CloseSock :: out_threads) (Return (-1));
   must Chown (CloseSock :: out_threads) (Return (-1));
   must Listen (CloseSock :: out_threads) (Return (-1));
   must AddListener (CloseSock :: out_threads) (Return (-1));
   may Tokens;                                                                                         (* 1801-1803: the result is not kept, rv is 0 *)
   must Efd out_threads (Return 0)].                                                                   (* 1806-1809 *)
(* 1811-1821 *)
Definition served := ([MainLoop; CloseTokens; PoolFree; CloseLock], Return 0).
Definition do_daemon (debug priv users : bool) (R : call -> Z) : list call * ending :=
  go R (before_lock debug priv R ++ drop priv users ++ listener R) served.
