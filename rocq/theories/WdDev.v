(* wdmd and the watchdog device: the choice of the device at the start, the probe (wdmd -p and
   wdmd -t), the opening for a client and the client's side of it.
   wdmd/main.c:342-376 (_init_test_interval, open_dev), 378-395 (close_watchdog), 409-417
   (pet_watchdog), 419-489 (_open_watchdog), 534-544 (its answer), 1115-1203 (_setup_watchdog,
   setup_watchdog), 1211-1305 (_try_timeout), 1307-1367 (_probe_dev), 1369-1427 (probe_dev,
   probe_watchdog), 1858 (-w); wdmd/client.c:80-101 (wdmd_open_watchdog), 129-147 (wdmd_status).
   A driver is what it answers to the calls made on it in one run; every path is tried at most
   once in a run.  saved_path is never set by the code ("TODO", 1142); it is an argument here.
   Not here: the test loop (Wdmd.v), the shared memory object (OneDaemon.v), messages. *)
From Coq Require Import List ZArith String Bool Lia.
Import ListNotations.
Open Scope string_scope.
Open Scope Z_scope.
Open Scope list_scope.

(* answers of a driver: stat(2), open(2), WDIOC_GETTIMEOUT, WDIOC_SETTIMEOUT (the value it leaves
   in its argument), the second WDIOC_GETTIMEOUT, WDIOC_KEEPALIVE, the write of "V" *)
Record drv := mkDrv { stat_ok : bool; open_ok : bool; get0 : option Z; setr : Z -> option Z; get1 : option Z; keep_ok : bool; v_ok : bool }.

Inductive ev :=
| EStat (p : string) (ok : bool) | EOpen (p : string) (ok : bool) | EGet (r : option Z) | ESet (v : Z) (r : option Z)
| EKeep (ok : bool) | EV (ok : bool) | EClose | EPrint (p : string) | EWait (seconds : Z).

(* 1120, 1858: an array of 64 bytes *)
Definition cut (p : string) : string := substring 0 63 p.

(* 378-395 and the ends of 1211 and 1307: the write may fail, the device is closed *)
Definition close_wd (d : drv) : list ev := [EV (v_ok d); EClose].

(* 1115-1148 *)
Definition setup1 (D : string -> drv) (path : string) : bool * list ev :=
  let p := cut path in let d := D p in
  if negb (stat_ok d) then (false, [EStat p false])
  else if negb (open_ok d) then (false, [EStat p true; EOpen p false])
  else match get0 d with
  | None => (false, [EStat p true; EOpen p true; EGet None] ++ close_wd d)
  | Some t => (true, [EStat p true; EOpen p true; EGet (Some t)] ++ close_wd d)
  end.

(* 1307-1367; fire_timeout is its default *)
Definition FIRE : Z := 60.
Definition probe1 (D : string -> drv) (p : string) : bool * list ev :=
  let d := D p in
  if negb (stat_ok d) then (false, [EStat p false])
  else if negb (open_ok d) then (false, [EStat p true; EOpen p false])
  else match get0 d with
  | None => (false, [EStat p true; EOpen p true; EGet None] ++ close_wd d)
  | Some t =>
      if t =? FIRE then (true, [EStat p true; EOpen p true; EGet (Some t); EPrint p] ++ close_wd d)
      else match setr d FIRE with
      | None => (false, [EStat p true; EOpen p true; EGet (Some t); ESet FIRE None] ++ close_wd d)
      | Some w =>
          if w =? FIRE then (true, [EStat p true; EOpen p true; EGet (Some t); ESet FIRE (Some w); EPrint p] ++ close_wd d)
          else (false, [EStat p true; EOpen p true; EGet (Some t); ESet FIRE (Some w)] ++ close_wd d)
      end
  end.

(* 1211-1305; the loop at 1275 waits get_timeout + 4 seconds *)
Definition try1 (try_timeout : Z) (forcefire : bool) (D : string -> drv) (p : string) : bool * list ev :=
  let d := D p in
  if negb (stat_ok d) then (false, [EStat p false])
  else if negb (open_ok d) then (false, [EStat p true; EOpen p false])
  else match get0 d with
  | None => (false, [EStat p true; EOpen p true; EGet None] ++ close_wd d)
  | Some t =>
      let t1 := [EStat p true; EOpen p true; EGet (Some t); ESet try_timeout (setr d try_timeout)] in
      match setr d try_timeout with
      | None => (false, t1 ++ close_wd d)
      | Some w =>
          if negb (w =? try_timeout) then (false, t1 ++ close_wd d)
          else match get1 d with
          | None => (false, t1 ++ [EGet None] ++ close_wd d)
          | Some g =>
              if negb (keep_ok d) then (false, t1 ++ [EGet (Some g); EKeep false] ++ close_wd d)
              else (true, t1 ++ [EGet (Some g); EKeep true] ++ (if forcefire then [EWait (g + 4)] else []) ++ close_wd d)
          end
      end
  end.

(* 1159-1203 and 1377-1427: the same five steps *)
Definition WD0 := "/dev/watchdog0". Definition WD1 := "/dev/watchdog1". Definition WD := "/dev/watchdog".
Definition step (try : string -> bool * list ev) (skip : bool) (p : string) (k : option string * list ev) : option string * list ev :=
  if skip then k else let (ok, t) := try p in if ok then (Some p, t) else let (r, t') := k in (r, t ++ t').
Definition search (try : string -> bool * list ev) (saved opt : string) : option string * list ev :=
  step try (saved =? "")%string saved
  (step try ((opt =? "") || (saved =? opt))%string opt
  (step try ((saved =? WD0) || (opt =? WD0))%string WD0
  (step try ((saved =? WD1) || (opt =? WD1))%string WD1
  (step try ((saved =? WD) || (opt =? WD))%string WD (None, []))))).

(* main: -w is kept in 64 bytes; -t 0 is -p (1371) *)
Definition setup (D : string -> drv) (saved w : string) := search (setup1 D) saved (cut w).
Definition probe (D : string -> drv) (saved w : string) (t : Z) (forcefire : bool) :=
  search (if t =? 0 then probe1 D else try1 t forcefire D) saved (cut w).

(* ---- opening for a client, 419-489 ---- *)
Record wd := mkWd { enable : bool; fd_open : bool; fire : Z; interval : Z }.
Definition s32 (v : Z) : Z := let w := v mod 2 ^ 32 in if w <? 2 ^ 31 then w else w - 2 ^ 32.
Definition u32 (v : Z) : Z := v mod 2 ^ 32.
Definition init_interval (f : Z) : Z := if 60 <=? f then 10 else if 30 <=? f then 5 else if 10 <=? f then 2 else 1.
(* the answer (0: it failed), what was done; h is a uint32_t, the timeouts are int *)
Definition open_wd (d : drv) (path : string) (s : wd) (h : Z) : wd * Z * list ev :=
  if enable s then (s, u32 (fire s), [])
  else if h =? 0 then (s, 0, [])
  else if fd_open s then (s, 0, [])
  else if negb (open_ok d) then (s, 0, [EOpen path false])
  else match get0 d with
  | None => (s, 0, [EOpen path true; EGet None] ++ close_wd d)
  | Some g =>
      if u32 g =? h then (mkWd true true g (init_interval g), u32 g, [EOpen path true; EGet (Some g); EKeep (keep_ok d)])
      else
        let v := s32 h in
        let t1 := [EOpen path true; EGet (Some g); ESet v (setr d v)] in
        match setr d v with
        | None => (s, 0, t1 ++ close_wd d)
        | Some w =>      (* the ioctl writes to set_timeout *)
            match get1 d with
            | None => (s, 0, t1 ++ [EGet None] ++ close_wd d)
            | Some g1 =>
                if g1 =? w then (mkWd true true g1 (init_interval g1), u32 g1, t1 ++ [EGet (Some g1); EKeep (keep_ok d)])
                else (s, 0, t1 ++ [EGet (Some g1)] ++ close_wd d)
            end
        end
  end.

(* wdmd/client.c:80-101: None: wdmd is gone, recv returns 0 and h was cleared *)
Definition client_open (req : Z) (answer : option Z) : bool := match answer with Some a => a =? u32 req | None => 0 =? u32 req end.
(* 129-147: h is not cleared: with None it is what was on the stack *)
Inductive stat_res := Report (interval fire : Z) | Indeterminate.
Definition client_status (answer : option (Z * Z)) : stat_res := match answer with Some (i, f) => Report i f | None => Indeterminate end.
