(* `sanlock client status` and the first part of `sanlock client host_status`: what the daemon sends and what the
   command prints.
   Daemon: src/cmd.c:2282-2461 (print_state_...), 2507-2608 (send_state_...), 2651-2703 (cmd_status), src/resource.c:133-156
   (send_state_resources).  Client: src/client_cmd.c:79-200 (status_..., print_st), 201-355 (sorting), 357-373 (recv_bin),
   375-477 (sanlock_status), 537-606 (sanlock_host_status), 479-535 (lockspace_host_status, the name sent).
   The daemon's answer is a sequence of bytes; the header before it is left out.  The bytes that have not been received
   when the connection ends are 0 in the client's buffers, which le_dec and upto_nul take missing bytes for.
   Simplified: what is printed is a line as a structure, numbers are not turned into digits; the values in the state
   string are any characters the formats %d, %u, %x, %llu give; -D (print_debug) is left out; an entry of sort_bufs
   that was set to NULL is skipped everywhere, here it is taken out of the list; malloc does not fail. *)
From Coq Require Import Ascii String List NArith ZArith Lia Bool Arith.
From Verif Require Import Bytes Strings.
Import ListNotations.
Open Scope nat_scope.

Fixpoint txt (s : string) : bytes :=
  match s with EmptyString => [] | String c r => N_of_ascii c :: txt r end.

(* src/sanlock_sock.h:78-85 *)
Definition MAXSTR : nat := N.to_nat 4096.
Definition T_DAEMON : N := 1.
Definition T_CLIENT : N := 2.
Definition T_LOCKSPACE : N := 3.
Definition T_RESOURCE : N := 4.

(* ---------------- daemon ---------------- *)
(* strncpy(dst, src, 48) into a cleared array *)
Definition strncpy48 (s : bytes) : bytes := firstn 48 (upto_nul s ++ repeat 0%N 48).

(* src/sanlock_sock.h:87-95; 80 bytes with the padding *)
Definition enc_state (type d32 d64 : N) (name : bytes) (slen : nat) : bytes :=
  le_enc 4 type ++ le_enc 4 0 ++ le_enc 4 d32 ++ repeat 0%N 4 ++ le_enc 8 d64 ++ name ++ le_enc 4 (N.of_nat slen) ++ repeat 0%N 4.

(* memset, snprintf(str, MAXSTR - 1, ...), strlen + 1 *)
Definition snp (t : bytes) : bytes := firstn (MAXSTR - 2) t ++ [0%N].

(* " key=value" for each key *)
Fixpoint fields (ks : list string) (vs : list bytes) : bytes :=
  match ks, vs with
  | k :: ks, v :: vs => txt " " ++ txt k ++ txt "=" ++ v ++ fields ks vs
  | _, _ => []
  end.
(* print_state_lockspace 2386-2435, print_state_resource 2437-2461 *)
Definition ls_keys : list string :=
  ["space_id"; "io_timeout"; "sector_size"; "align_size"; "host_generation"; "renew_fail"; "space_dead"; "killing_pids";
   "used_retries"; "external_used"; "used_by_orphans"; "renewal_read_extend_sec"; "set_max_sectors_kb"; "corrupt_result";
   "acquire_last_result"; "renewal_last_result"; "acquire_last_attempt"; "acquire_last_success"; "renewal_last_attempt";
   "renewal_last_success"]%string.
Definition res_keys : list string :=
  ["flags"; "sector_size"; "align_size"; "lver"; "reused"; "res_id"; "token_id"]%string.
Definition list_text (ln : string) (ks : list string) (vs : list bytes) : bytes :=
  txt "list=" ++ txt ln ++ fields ks vs.

Record client := mkCl { cl_used : bool; cl_pid : N; cl_name : bytes; cl_text : bytes }.
Record disk := mkDk { dk_path : bytes; dk_off : N; dk_pad : bytes }.    (* path: the array of 1024 *)
Record space := mkSp { sp_name : bytes; sp_id : N; sp_disk : disk; sp_vals : list bytes }.
Record token := mkTk { tk_pid : N; tk_id : bytes }.
(* struct sanlk_resource r->r as it is in memory, with its disks; leader.lver; tokens; r->pid; the values of the text *)
Record resource := mkRs { rs_ls : bytes; rs_name : bytes; rs_mid : bytes; rs_flags : N; rs_disks : list disk;
                          rs_lver : N; rs_tokens : list token; rs_pid : N; rs_vals : list bytes }.
Record daemon := mkDm { dm_name : bytes; dm_text : bytes; dm_clients : list client;
                        dm_spaces : list space; dm_sadd : list space; dm_srem : list space;
                        dm_held : list resource; dm_radd : list resource; dm_rrem : list resource; dm_orphan : list resource }.

Definition enc_disk (d : disk) : bytes := dk_path d ++ le_enc 8 (dk_off d) ++ dk_pad d.

Definition send_state (type d32 d64 : N) (name text : bytes) : bytes :=
  let str := snp text in enc_state type d32 d64 (strncpy48 name) (length str) ++ str.
Definition send_daemon (d : daemon) : bytes := send_state T_DAEMON 0 0 (dm_name d) (dm_text d).
Definition send_client (c : client) : bytes :=
  if cl_used c then send_state T_CLIENT (cl_pid c) 0 (cl_name c) (cl_text c) else [].
Definition send_lockspace (ln : string) (sp : space) : bytes :=
  send_state T_LOCKSPACE 0 (sp_id sp) (sp_name sp) (list_text ln ls_keys (sp_vals sp)) ++
  (strncpy48 (sp_name sp) ++ le_enc 8 (sp_id sp) ++ le_enc 4 0 ++ repeat 0%N 4 ++ enc_disk (sp_disk sp)).
Definition enc_res (r : resource) : bytes :=
  rs_ls r ++ rs_name r ++ rs_mid r ++ le_enc 4 (rs_flags r) ++ le_enc 4 (N.of_nat (length (rs_disks r))).
Definition send_resource (ln : string) (r : resource) (pid : N) (tid : bytes) : bytes :=
  send_state T_RESOURCE pid (rs_lver r) (rs_name r) (list_text ln res_keys (rs_vals r ++ [tid])) ++
  enc_res r ++ concat (map enc_disk (rs_disks r)).

Definition per_token (ln : string) (r : resource) : bytes :=
  concat (map (fun t => send_resource ln r (tk_pid t) (tk_id t)) (rs_tokens r)).
(* cmd_status for `sanlock client status` (h_recv->data = 0) *)
Definition stream (d : daemon) : bytes :=
  send_daemon d ++
  concat (map send_client (dm_clients d)) ++
  concat (map (send_lockspace "spaces") (dm_spaces d)) ++
  concat (map (send_lockspace "add") (dm_sadd d)) ++
  concat (map (send_lockspace "rem") (dm_srem d)) ++
  concat (map (per_token "held") (dm_held d)) ++
  concat (map (per_token "add") (dm_radd d)) ++
  concat (map (fun r => send_resource "rem" r (rs_pid r) (txt "0")) (dm_rrem d)) ++
  concat (map (fun r => send_resource "orphan" r (rs_pid r) (txt "0")) (dm_orphan d)).

(* ---------------- client: receiving ---------------- *)
Record entry := mkE { e_type : N; e_d32 : N; e_d64 : N; e_name : bytes; e_str : bytes; e_bin : bytes }.
Inductive rx := RxEntry (e : entry) (rest : bytes) | RxEnd | RxUB.

Definition RSZ : nat := 128.
Definition DSZ : nat := N.to_nat 1040.
Definition LSZ : nat := N.to_nat 1104.

(* recv_bin 357-373 into a buffer of [room] bytes; the results of recv are not looked at *)
Definition recv_bin (room : nat) (type : N) (s : bytes) : option (bytes * bytes) :=
  if N.eqb type T_LOCKSPACE then Some (firstn LSZ s, skipn LSZ s)
  else if N.eqb type T_RESOURCE then
    let nd := N.to_nat (le_dec (get 124 4 s)) in
    let s1 := skipn RSZ s in
    if room <? RSZ + Nat.min (nd * DSZ) (length s1) then None
    else Some (firstn RSZ s ++ firstn (nd * DSZ) s1, skipn (nd * DSZ) s1)
  else Some ([], s).

(* one pass of the loop 409-437 / 570-594 *)
Definition rx1 (room : nat) (s : bytes) : rx :=
  if length s <? 80 then RxEnd
  else
    let h := firstn 80 s in
    let s1 := skipn 80 s in
    let sl := N.to_nat (le_dec (get 72 4 h)) in
    let type := le_dec (get 0 4 h) in
    if MAXSTR <? sl then RxUB
    else if length s1 <? sl then RxEnd
    else match recv_bin room type (skipn sl s1) with
         | None => RxUB
         | Some (bin, rest) =>
             RxEntry (mkE type (le_dec (get 8 4 h)) (le_dec (get 16 8 h)) (get 24 48 h) (firstn sl s1) bin) rest
         end.
(* every pass takes 80 bytes: the length is enough fuel *)
Fixpoint receive (fuel : nat) (room : nat) (s : bytes) : list entry * bool :=
  match fuel with
  | O => ([], false)
  | S n => match rx1 room s with
           | RxEnd => ([], false)
           | RxUB => ([], true)
           | RxEntry e rest => let '(es, ub) := receive n room rest in (e :: es, ub)
           end
  end.

(* ---------------- client: printing ---------------- *)
Inductive mark := MAdd | MRem | MOrphan.
Inductive line :=
| LnDaemon (name : bytes)
| LnClient (pid : N) (name : bytes)
| LnSpace (name : bytes) (id : N) (path : bytes) (off : N) (m : option mark)
| LnRes (ls name : bytes) (disks : list (bytes * N)) (ver : option N) (pid : N) (m : option mark)
| LnDash
| LnCannot.

Fixpoint prefix (p s : bytes) : bool :=
  match p, s with
  | [], _ => true
  | a :: p, b :: s => N.eqb a b && prefix p s
  | _ :: _, [] => false
  end.
Fixpoint strstr (s p : bytes) : bool :=
  prefix p s || match s with [] => false | _ :: s => strstr s p end.

(* add_rem_str 96-109 *)
Definition add_rem (str : bytes) : option mark :=
  match str with
  | [] => None
  | _ =>
    let s := upto_nul str in
    if strstr s (txt "list=add") then Some MAdd
    else if strstr s (txt "list=rem") then Some MRem
    else if strstr s (txt "list=orphan") then Some MOrphan
    else None
  end.

(* printf %.48s of an array of 48 *)
Definition pname (b : bytes) : bytes := firstn 48 (upto_nul b).
Definition export (path : bytes) : bytes := path_export 1025 (upto_nul path).
Definition bin_disk (bin : bytes) (i : nat) : bytes * N :=
  (export (get (RSZ + i * DSZ) (DSZ - 16) bin), le_dec (get (RSZ + i * DSZ + (DSZ - 16)) 8 bin)).

(* print_st 183-204 *)
Definition print_st (e : entry) : list line :=
  if N.eqb (e_type e) T_DAEMON then [LnDaemon (pname (e_name e))]
  else if N.eqb (e_type e) T_CLIENT then [LnClient (e_d32 e) (pname (e_name e))]
  else if N.eqb (e_type e) T_LOCKSPACE then
    let b := e_bin e in
    [LnSpace (pname (get 0 48 b)) (le_dec (get 48 8 b)) (export (get 64 (DSZ - 16) b)) (le_dec (get (64 + (DSZ - 16)) 8 b)) (add_rem (e_str e))]
  else if N.eqb (e_type e) T_RESOURCE then
    let b := e_bin e in
    [LnRes (pname (get 0 48 b)) (pname (get 48 48 b))
           (map (bin_disk b) (seq 0 (N.to_nat (le_dec (get 124 4 b)))))
           (if has_shared (le_dec (get 120 4 b)) then None else Some (e_d64 e)) (e_d32 e) (add_rem (e_str e))]
  else [].
Definition print_all (es : list entry) : list line := concat (map print_st es).

(* sorting *)
Definition is_type (t : N) (e : entry) : bool := N.eqb (e_type e) t.
(* print_type, print_p: print and drop what is chosen *)
Definition print_if (f : entry -> bool) (b : list entry) : list line * list entry :=
  (print_all (filter f b), filter (fun e => negb (f e)) b).
Fixpoint find_type (t : N) (b : list entry) : option (entry * list entry) :=    (* the first one, and the others *)
  match b with
  | [] => None
  | e :: r => if is_type t e then Some (e, r)
              else match find_type t r with Some (x, r') => Some (x, e :: r') | None => None end
  end.
(* the condition of print_r 295-296, called for a process or for a lockspace *)
Definition r_of_p (h e : entry) : bool := is_type T_RESOURCE e && negb (N.eqb (e_d32 h) 0) && N.eqb (e_d32 e) (e_d32 h).
Fixpoint eqb_bytes (a b : bytes) : bool :=
  match a, b with [], [] => true | x :: a, y :: b => N.eqb x y && eqb_bytes a b | _, _ => false end.
Definition r_of_s (h e : entry) : bool := is_type T_RESOURCE e && eqb_bytes (pname (e_name h)) (pname (get 0 48 (e_bin e))).
(* print_r_by_p 305-329, print_r_by_s 331-355 *)
Fixpoint grp (fuel : nat) (t : N) (sel : entry -> entry -> bool) (b : list entry) : list line * list entry :=
  match fuel with
  | O => ([], b)
  | S n => match find_type t b with
           | None => ([], b)
           | Some (h, b1) =>
               let '(l, b2) := print_if (sel h) b1 in
               let '(l2, b3) := grp n t sel b2 in
               (print_st h ++ l ++ l2, b3)
           end
  end.
Definition PID_NONE : N := (2 ^ 32 - 1)%N.
(* 453-472 *)
Definition sorted (t1 t2 : N) (sel : entry -> entry -> bool) (b : list entry) : list line :=
  let '(l1, b1) := print_if (is_type T_DAEMON) b in
  let '(l2, b2) := print_if (fun e => is_type T_CLIENT e && N.eqb (e_d32 e) PID_NONE) b1 in
  let '(l3, b3) := print_if (is_type t1) b2 in
  let '(l4, b4) := grp (length b3) t2 sel b3 in
  l1 ++ l2 ++ l3 ++ l4 ++ match b4 with [] => [] | _ => LnDash :: print_all b4 end.

Inductive sort := NoSort | SortP | SortS.
Definition MAX_SORT : nat := N.to_nat 1024.
Record outcome := mkO { o_lines : list line; o_ub : bool; o_rv : Z }.
(* sanlock_status *)
Definition status (so : sort) (s : bytes) : outcome :=
  match so with
  | NoSort => let '(es, ub) := receive (length s) MAXSTR s in mkO (print_all es) ub 0
  | _ =>
    let '(es, ub) := receive (length s) (3 * MAXSTR) s in
    match skipn MAX_SORT es with
    | e :: _ => mkO [LnCannot] false (Z.of_nat (length (e_str e)))      (* 440-443: rv is still that of recv *)
    | [] => if ub then mkO [] true 0
            else mkO (match so with SortP => sorted T_LOCKSPACE T_CLIENT r_of_p es | _ => sorted T_CLIENT T_LOCKSPACE r_of_s es end) false 0
    end
  end.

(* ---------------- sanlock_host_status without a lockspace ---------------- *)
(* strdup(ls->name) 594: up to the first 0, also behind the array; sort_bufs is not checked for its end *)
Definition host_status_names (s : bytes) : option (list bytes) :=
  let '(es, ub) := receive (length s) MAXSTR s in
  let ns := map (fun e => upto_nul (e_bin e)) (filter (is_type T_LOCKSPACE) es) in
  if ub || (MAX_SORT <? length ns) then None else Some ns.
(* lockspace_host_status 495: snprintf(lockspace.name, 48, "%s", name) *)
Definition host_status_query (name : bytes) : bytes := firstn 47 name.
(* find_lockspace: strncmp over 48 *)
Definition found (name : bytes) (sp : space) : bool := eqb_bytes name (pname (sp_name sp)).
(* cmd_status with SANLK_STATE_LOCKSPACE *)
Definition ls_stream (d : daemon) : bytes :=
  send_daemon d ++
  concat (map send_client (dm_clients d)) ++
  concat (map (send_lockspace "spaces") (dm_spaces d)) ++
  concat (map (send_lockspace "add") (dm_sadd d)) ++
  concat (map (send_lockspace "rem") (dm_srem d)).
