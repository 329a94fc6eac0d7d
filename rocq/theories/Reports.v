(* The lists of lockspaces and of hosts that a client asks for.
   src/lockspace.c:1376-1419 (get_lockspaces), 1533-1596 (get_hosts), src/cmd.c:2857-2921
   (cmd_get_lockspaces, cmd_get_hosts), src/client.c:214-283 (sanlock_get_lockspaces),
   285-366 (sanlock_get_hosts).

   An entry is the record of its fields, its size is that of the C structure.  The
   connection is closed after the answer (cmd.c:3151, client_free), so a client that
   reads on gets end of file.  Simplification: sending and receiving do not fail otherwise. *)
From Coq Require Import List NArith ZArith Lia Bool ZifyBool ZifyN.
From Verif Require Import Bytes Codec Leader Lockspaces HostStatus.
Import ListNotations.
Open Scope N_scope.

Definition LOG_DUMP_SIZE : N := 1048576.       (* sanlock_internal.h:42, size of send_data_buf *)
Definition SZ_LOCKSPACE : N := 1104.           (* 48 + 8 + 4 + pad 4 + (1024 + 8 + 4 + 4) *)
Definition SZ_HOST : N := 32.

Definition LSF_ADD : N := 1.                    (* sanlock.h: SANLK_LSF_ADD *)
Definition LSF_REM : N := 2.                    (* SANLK_LSF_REM *)

Record ls_entry := mkLsE { le_name : bytes; le_path : bytes; le_offset : N; le_host_id : N; le_flags : N }.
Record host_entry := mkHostE { he_id : N; he_gen : N; he_ts : N; he_io : N; he_flag : hflag }.

(* the copy loops: an entry that does not fit is counted and skipped.  Result: what was
   copied, the count, and whether something did not fit (-ENOSPC) *)
Fixpoint fill {B} (sz maxlen len : N) (l : list B) : list B * N * bool :=
  match l with
  | [] => ([], 0, false)
  | x :: r =>
      if maxlen <? len + sz
      then let '(o, c, _) := fill sz maxlen len r in (o, c + 1, true)
      else let '(o, c, f) := fill sz maxlen (len + sz) r in (x :: o, c + 1, f)
  end.

Definition entry (flags : N) (sp : space) : ls_entry :=
  mkLsE (firstn NAME_ID_SIZE (sp_name sp)) (sp_path sp) (sp_offset sp) (sp_host_id sp) flags.

(* lockspace.c:1376-1419: heads in the order spaces, spaces_rem, spaces_add *)
Definition ls_items (st : spaces) : list ls_entry :=
  map (entry 0) (s_spaces st) ++ map (entry LSF_REM) (s_rem st) ++ map (entry LSF_ADD) (s_add st).
Definition get_lockspaces (st : spaces) : Z * N * list ls_entry :=
  let '(o, c, f) := fill SZ_LOCKSPACE LOG_DUMP_SIZE 0 (ls_items st) in
  ((if f then -28 else 0)%Z, c, o).

(* lockspace.c:1533-1596.  hs: host_status[i]; now: monotime() when host i is looked at *)
Definition host_items (own fire : N) (now : nat -> N) (max_hosts : nat) (hs : nat -> hstatus) (asked : N)
  : list host_entry :=
  flat_map (fun i =>
    if negb (asked =? 0) && negb (asked =? N.of_nat i + 1) then []
    else if (asked =? 0) && (hs_timestamp (hs i) =? 0) then []
    else [mkHostE (N.of_nat i + 1) (hs_owner_generation (hs i)) (hs_timestamp (hs i)) (hs_io_timeout (hs i))
                  (get_host_flag own fire (now i) (hs i))])
    (seq 0 max_hosts).
Definition get_hosts (st : spaces) (name : bytes) (fire : N) (now : nat -> N) (max_hosts : nat)
           (hs : nat -> hstatus) (asked : N) : Z * N * list host_entry :=
  match search_space (Some name) None 0 [s_spaces st] with
  | None => ((-2)%Z, 0, [])                                      (* -ENOENT *)
  | Some sp =>
      if hs_last_check (hs 0%nat) =? 0 then ((-11)%Z, 0, [])     (* -EAGAIN *)
      else let '(o, c, f) := fill SZ_HOST LOG_DUMP_SIZE 0 (host_items (sp_host_id sp) fire now max_hosts hs asked) in
           ((if f then -28 else 0)%Z, c, o)
  end.

(* the client: n entries are read from what was sent, None: end of file before that *)
Fixpoint read_n {B} (n : nat) (l : list B) : option (list B) :=
  match n, l with
  | O, _ => Some []
  | S n', x :: r => match read_n n' r with Some o => Some (x :: o) | None => None end
  | S _, [] => None
  end.

(* client.c:246-281, 328-364: the value returned, the count stored, the list stored.
   mem: malloc succeeds *)
Definition client_list {B} (mem : bool) (ans : Z * N * list B) : Z * option N * option (list B) :=
  let '(rv, count, sent) := ans in
  if ((rv <? 0) && negb (rv =? -28))%Z then (rv, None, None)
  else if negb mem then (rv, Some count, None)
  else match read_n (N.to_nat count) sent with
       | Some l => (rv, Some count, Some l)
       | None => ((-1)%Z, Some count, None)
       end.
