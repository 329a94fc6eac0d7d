(* The settings of the daemon: sanlock.conf and the options of "sanlock daemon".
   src/main.c:2602-2689 cmd_str_to_num, 2691-2715 cmd_num_to_debug_flag, set_cmd_debug, clear_cmd_debug,
   2717-2745 get_val_int, get_val_str, 2747-2941 read_config_file, 2191-2570 read_command_line (the options, for
   the daemon), 3900-3970 main; src/sanlock_internal.h:318-337.
   A file is the list of its characters.  The int val of read_config_file is not initialised; the first
   argument of conf_read is what it holds.  getpwnam and getgrnam are functions from a name to the id; strdup
   does not fail.  Options of read_command_line that set no member listed here have no effect; arguments of
   -s, -r, -x, -A and -Z, with which the program may end, are taken to be accepted. *)
From Coq Require Import Ascii String List NArith ZArith Lia Bool Arith.
From Verif Require Import Bytes Strings ArgStr StatusOut.
Import ListNotations.
Open Scope N_scope.

(* integer members of struct command_line (src/sanlock_internal.h:339-400) and the three log_ variables
   (src/main.c:75-77) *)
Inductive ikey := Debug | QuietFail | DebugRenew | AioArg | LogfilePriority | LogfileUseUtc | SyslogPriority
  | NamesLogPriority | UseWatchdog | IoTimeout | FireTimeout | KillGrace | KillGraceSet | HighPriority
  | MlockLevel | ShRetries | Uid | Gid | ReadExtend | ReadExtendSet | WriteInitTimeout | HistorySize
  | PaxosDebugAll | IoSubmit | IoComplete | DebugClients | KbIgnore | KbAlign | KbNum | MaxWorkers.
Inductive skey := Uname | Gname | OurHostName.
Scheme Equality for ikey.
Scheme Equality for skey.
(* c_cmds: the 64 bits of debug_cmds *)
Record com := mkCom { c_int : ikey -> Z; c_str : skey -> option bytes; c_cmds : N }.
Definition seti (k : ikey) (v : Z) (c : com) : com :=
  mkCom (fun x => if ikey_beq x k then v else c_int c x) (c_str c) (c_cmds c).
Definition sets (k : skey) (v : bytes) (c : com) : com :=
  mkCom (c_int c) (fun x => if skey_beq x k then Some v else c_str c x) (c_cmds c).
Definition setc (v : N) (c : com) : com := mkCom (c_int c) (c_str c) v.

Definition eqs (a : bytes) (s : string) : bool := eqb_bytes a (txt s).

(* src/main.c:2602-2689; the numbers are those of src/sanlock_sock.h:22-63 *)
Definition cmd_str_to_num (s : bytes) : N :=
  if eqs s "inq_lockspace" then 16
  else if eqs s "read_resource_owners" then 24
  else if eqs s "get_lockspaces" then 22
  else if eqs s "get_hosts" then 23
  else if eqs s "register" then 1
  else if eqs s "add_lockspace" then 2
  else if eqs s "rem_lockspace" then 3
  else if eqs s "shutdown" then 4
  else if eqs s "status" then 5
  else if eqs s "acquire" then 7
  else if eqs s "release" then 8
  else if eqs s "inquire" then 9
  else if eqs s "restrict" then 10
  else if eqs s "request" then 11
  else if eqs s "align" then 12
  else if eqs s "examine_lockspace" then 13
  else if eqs s "examine_resource" then 14
  else if eqs s "host_status" then 15
  else if eqs s "killpath" then 17
  else if eqs s "write_lockspace" then 18
  else if eqs s "write_resource" then 19
  else if eqs s "read_lockspace" then 20
  else if eqs s "read_resource" then 21
  else if eqs s "set_lvb" then 25
  else if eqs s "get_lvb" then 26
  else if eqs s "convert" then 27
  else if eqs s "version" then 28
  else if eqs s "shutdown_wait" then 29
  else if eqs s "reg_event" then 30
  else if eqs s "end_event" then 31
  else if eqs s "set_event" then 32
  else if eqs s "set_config" then 33
  else if eqs s "renewal" then 34
  else if eqs s "format_rindex" then 35
  else if eqs s "update_rindex" then 36
  else if eqs s "lookup_rindex" then 37
  else if eqs s "create_resource" then 38
  else if eqs s "delete_resource" then 39
  else if eqs s "rebuild_rindex" then 40
  else if eqs s "log_dump" then 6
  else 0.

(* 2691-2715 *)
Definition debug_flag (cmd : N) : N := N.shiftl 1 cmd.
Definition ALL_CMDS : N := 2 ^ 64 - 1.
Definition set_cmd_debug (cmd : N) (c : com) : com := setc (N.lor (c_cmds c) (debug_flag cmd)) c.
Definition clear_cmd_debug (cmd : N) (c : com) : com :=
  setc (N.land (c_cmds c) (N.lxor ALL_CMDS (debug_flag cmd))) c.

(* fgets: up to n characters, not more than one line *)
Fixpoint fgets (n : nat) (s : bytes) : bytes * bytes :=
  match n, s with
  | S k, x :: r => if x =? 10 then ([x], r) else let '(a, b) := fgets k r in (x :: a, b)
  | _, _ => ([], s)
  end.
Definition MAX_CONF_LINE : nat := N.to_nat 128.

Fixpoint take_while (f : N -> bool) (s : bytes) : bytes :=
  match s with [] => [] | x :: r => if f x then x :: take_while f r else [] end.
Fixpoint drop_while (f : N -> bool) (s : bytes) : bytes :=
  match s with [] => [] | x :: r => if f x then drop_while f r else s end.

(* 2770-2782; the 0 ends the list *)
Definition word_char (x : N) : bool := negb ((x =? 32) || (x =? 61) || (x =? 10) || (x =? 9)).
Definition word (line : bytes) : bytes := take_while word_char line.

(* sscanf(line, "%[^=]=%s", key, val): what is stored in key and in val, when the second is reached *)
Definition not_eq_sign (x : N) : bool := negb (x =? 61).
Definition scan_key (line : bytes) : bytes := take_while not_eq_sign line.
Definition scan_val (line : bytes) : bytes :=
  match drop_while not_eq_sign line with
  | [] => []
  | _ :: r => take_while (fun x => negb (is_space x)) (skip_space r)
  end.
(* both conversions *)
Definition scan2 (line : bytes) : option bytes :=
  match scan_key line, scan_val line with
  | [], _ => None
  | _, [] => None
  | _, v => Some v
  end.

(* atoi is strtol, cut to int *)
Definition int_of (z : Z) : Z := ((z + 2 ^ 31) mod 2 ^ 32 - 2 ^ 31)%Z.
Definition atoi (s : bytes) : Z := int_of (atoll s).

(* 2719-2731: val is left when there is no value *)
Definition get_val_int (line : bytes) (val : Z) : Z := match scan2 line with Some v => atoi v | None => val end.
(* 2733-2745 *)
Definition get_val_str (line str : bytes) : bytes := match scan2 line with Some v => v | None => str end.

(* strstr *)
Fixpoint starts (p s : bytes) : bool :=
  match p, s with
  | [], _ => true
  | x :: p, y :: s => (x =? y) && starts p s
  | _, _ => false
  end.
Fixpoint strstr (s p : bytes) : bool :=
  starts p s || match s with [] => false | _ :: r => strstr r p end.

(* user_to_uid, group_to_gid 1824-1850 *)
Definition id_of (db : bytes -> option Z) (name : bytes) : Z := match db name with Some i => i | None => 0%Z end.
Definition NAME_ID_SIZE : nat := N.to_nat 48.

(* the options whose value is an int, 2784-2939: what is done with val *)
Definition int_opt (name : bytes) (val : Z) (c : com) : option com :=
  if eqs name "quiet_fail" then Some (seti QuietFail val c)
  else if eqs name "debug_renew" then Some (seti DebugRenew val c)
  else if eqs name "use_aio" then Some (seti AioArg val c)
  else if eqs name "logfile_priority" then Some (seti LogfilePriority val c)
  else if eqs name "logfile_use_utc" then Some (seti LogfileUseUtc val c)
  else if eqs name "syslog_priority" then Some (seti SyslogPriority val c)
  else if eqs name "names_log_priority" then Some (seti NamesLogPriority val c)
  else if eqs name "use_watchdog" then Some (seti UseWatchdog val c)
  else if eqs name "io_timeout" then Some (if (0 <? val)%Z then seti IoTimeout val c else c)
  else if eqs name "watchdog_fire_timeout" then Some (if (0 <? val)%Z then seti FireTimeout val c else c)
  else if eqs name "kill_grace_seconds" then
    Some (if ((val <=? 60) && (0 <=? val))%Z then seti KillGraceSet 1 (seti KillGrace val c) else c)
  else if eqs name "high_priority" then Some (seti HighPriority val c)
  else if eqs name "mlock_level" then Some (seti MlockLevel val c)
  else if eqs name "sh_retries" then Some (seti ShRetries val c)
  else if eqs name "renewal_read_extend_sec" then Some (seti ReadExtend val (seti ReadExtendSet 1 c))
  else if eqs name "write_init_io_timeout" then Some (if (0 <? val)%Z then seti WriteInitTimeout val c else c)
  else if eqs name "renewal_history_size" then Some (seti HistorySize val c)
  else if eqs name "paxos_debug_all" then Some (seti PaxosDebugAll val c)
  else if eqs name "debug_clients" then Some (seti DebugClients val c)
  else if eqs name "max_worker_threads" then Some (seti MaxWorkers val c)
  else None.
(* 2934-2937: val itself is raised *)
Definition MIN_WORKERS : Z := 2.
Definition val_after (name : bytes) (val : Z) : Z :=
  if eqs name "max_worker_threads" then (if (val <? MIN_WORKERS)%Z then MIN_WORKERS else val) else val.

(* max_sectors_kb, 2909-2931 *)
Definition max_sectors_kb (str : bytes) (c : com) : com :=
  if strstr str (txt "ignore") then seti KbNum 0 (seti KbAlign 0 (seti KbIgnore 1 c))
  else if strstr str (txt "align") then seti KbNum 0 (seti KbAlign 1 (seti KbIgnore 0 c))
  else match str with
       | x :: _ =>
         if (48 <=? x) && (x <=? 57) then
           let num := atoi str in
           if ((num =? 0) || negb (Z.rem num 2 =? 0) || (8192 <? num))%Z then c
           else seti KbNum num (seti KbAlign 0 (seti KbIgnore 0 c))
         else c
       | [] => c
       end.
(* debug_cmd, 2895-2907 *)
Definition debug_cmd (str : bytes) (c : com) : com :=
  if eqs str "+all" then setc ALL_CMDS c
  else if eqs str "-all" then setc 0 c
  else let cmd := cmd_str_to_num (tl str) in
       if cmd =? 0 then c
       else match str with
            | x :: _ => if x =? 43 then set_cmd_debug cmd c else if x =? 45 then clear_cmd_debug cmd c else c
            | [] => c
            end.
(* debug_io, 2883-2889 *)
Definition debug_io (str : bytes) (c : com) : com :=
  let c1 := if strstr str (txt "submit") then seti IoSubmit 1 c else c in
  if strstr str (txt "complete") then seti IoComplete 1 c1 else c1.

(* the options whose value is a string.  str is cleared before, except with debug_cmd *)
Definition str_opt (pw gr : bytes -> option Z) (name line : bytes) (c : com) : com :=
  if eqs name "uname" then let s := get_val_str line [] in seti Uid (id_of pw s) (sets Uname s c)
  else if eqs name "gname" then let s := get_val_str line [] in seti Gid (id_of gr s) (sets Gname s c)
  else if eqs name "our_host_name" then sets OurHostName (firstn NAME_ID_SIZE (get_val_str line [])) c
  else if eqs name "debug_io" then debug_io (get_val_str line []) c
  else if eqs name "debug_cmd" then debug_cmd (get_val_str line name) c
  else if eqs name "max_sectors_kb" then max_sectors_kb (get_val_str line []) c
  else c.

(* one turn of the loop 2764-2940; the second member is val *)
Definition conf_line (pw gr : bytes -> option Z) (buf : bytes) (st : com * Z) : com * Z :=
  let line := upto_nul buf in
  let '(c, val) := st in
  if match line with x :: _ => (x =? 35) || (x =? 10) | [] => false end then st
  else
    let name := word line in
    let val1 := val_after name (get_val_int line val) in
    match int_opt name val1 c with
    | Some c' => (c', val1)
    | None => (str_opt pw gr name line c, val)
    end.
Fixpoint conf_loop (fuel : nat) (pw gr : bytes -> option Z) (s : bytes) (st : com * Z) : com * Z :=
  match fuel with
  | O => st
  | S f =>
    match s with
    | [] => st
    | _ => let '(l, r) := fgets (MAX_CONF_LINE - 1) s in conf_loop f pw gr r (conf_line pw gr l st)
    end
  end.
Definition conf_read (junk : Z) (pw gr : bytes -> option Z) (s : bytes) (c : com) : com :=
  fst (conf_loop (length s) pw gr s (c, junk)).
(* read_config_file: None when the file is not there or cannot be opened *)
Definition read_config_file (junk : Z) (pw gr : bytes -> option Z) (file : option bytes) (c : com) : com :=
  match file with Some s => conf_read junk pw gr s c | None => c end.

(* ---------------- command line ---------------- *)
Inductive oeff := OGo (c : com) | OStop (c : com) | OExit.
(* 2397-2543, for the daemon; -c (99) ends the options, an unknown one the program *)
Definition known_other (ch : N) : bool :=
  existsb (N.eqb ch) (txt "FbnmpdifsrOPuxzAZ").
Definition chr (ch : N) (s : string) : bool := eqs [ch] s.
Definition opt (pw gr : bytes -> option Z) (ch : N) (a : bytes) (c : com) : oeff :=
  if chr ch "Q" then OGo (seti QuietFail (atoi a) c)
  else if chr ch "R" then OGo (seti DebugRenew (atoi a) c)
  else if chr ch "H" then OGo (seti HistorySize (atoi a) c)
  else if chr ch "L" then OGo (seti LogfilePriority (atoi a) c)
  else if chr ch "S" then OGo (seti SyslogPriority (atoi a) c)
  else if chr ch "a" then OGo (seti AioArg (if (atoi a =? 0)%Z then 0 else 1) c)
  else if chr ch "t" then OGo (seti MaxWorkers (if (atoi a <? MIN_WORKERS)%Z then MIN_WORKERS else atoi a) c)
  else if chr ch "w" then OGo (seti UseWatchdog (atoi a) c)
  else if chr ch "h" then OGo (seti HighPriority (atoi a) c)
  else if chr ch "l" then OGo (seti MlockLevel (atoi a) c)
  else if chr ch "o" then OGo (if (0 <? atoi a)%Z then seti IoTimeout (atoi a) c else c)
  else if chr ch "e" then OGo (sets OurHostName (firstn NAME_ID_SIZE a) c)
  else if chr ch "g" then
    OGo (if ((atoi a <=? 60) && (0 <=? atoi a))%Z then seti KillGraceSet 1 (seti KillGrace (atoi a) c) else c)
  else if chr ch "U" then OGo (seti Uid (id_of pw a) (sets Uname a c))
  else if chr ch "G" then OGo (seti Gid (id_of gr a) (sets Gname a c))
  else if chr ch "c" then OStop c
  else if known_other ch then OGo c
  else OExit.
(* 2368-2548: the arguments behind "daemon".  None: exit(EXIT_FAILURE) *)
Fixpoint options (pw gr : bytes -> option Z) (args : list bytes) (c : com) : option com :=
  match args with
  | [] => Some c
  | p :: r =>
    match p with
    | [d; ch] =>
      if d =? 45 then
        if chr ch "D" then options pw gr r (seti Debug 1 c)
        else match r with
             | [] => None
             | a :: r' => match opt pw gr ch a c with
                          | OGo c' => options pw gr r' c'
                          | OStop c' => Some c'
                          | OExit => None
                          end
             end
      else None
    | _ => None
    end
  end.

(* ---------------- main 3915-3970 ---------------- *)
Definition default_int (k : ikey) : Z :=
  match k with
  | UseWatchdog => 1 | FireTimeout => 60 | KillGrace => 40 | HighPriority => 0 | MlockLevel => 1
  | NamesLogPriority => 4 | MaxWorkers => 8 | IoTimeout => 10 | WriteInitTimeout => 60 | AioArg => 1
  | ShRetries => 8 | QuietFail => 1 | HistorySize => 180 | KbNum => 1024
  | LogfilePriority => 4 | SyslogPriority => 3
  | _ => 0
  end.
Definition defaults (pw gr : bytes -> option Z) : com :=
  let c0 := mkCom default_int (fun _ => None) ALL_CMDS in
  let c1 := fold_left (fun c cmd => clear_cmd_debug cmd c) [16; 22; 23; 20; 21; 24; 19] c0 in
  match gr (txt "sanlock"), pw (txt "sanlock") with
  | Some g, Some u =>
    seti Gid g (seti Uid u (sets Gname (txt "sanlock") (sets Uname (txt "sanlock") c1)))
  | _, _ => c1
  end.
Definition settings (junk : Z) (pw gr : bytes -> option Z) (file : option bytes) (args : list bytes) : option com :=
  options pw gr args (read_config_file junk pw gr file (defaults pw gr)).
