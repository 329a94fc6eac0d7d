(* Which processes use a lockspace, and when the main loop gives the lockspace up.
   Code: src/main.c:575-594 (client_using_space), 695-759 (all_pids_dead), 487-554
   (client_pid_dead), 844-907 (main_loop); src/cmd.c:120-154 (check_new_tokens_space),
   398-418 and 502-571 (cmd_acquire), 574-766 (cmd_release), 3043-3068 (REGISTER).

   One lockspace name is followed.  The unit of interleaving is the critical section:
   a worker links its new tokens holding spaces_mutex and the client's mutex, the main
   loop looks at the clients one after the other holding spaces_mutex all the time
   and each client's mutex in turn. *)
From Coq Require Import List Arith Lia Bool.
Import ListNotations.

(* a lease in the lockspace: the host id and generation it was acquired with *)
Record ltok := mkLtok { lt_hid : nat; lt_gen : nat }.
Record ucl := mkU {
  u_live : bool;             (* used and pid > 0 *)
  u_toks : list ltok;        (* cl->tokens of this lockspace *)
  u_work : list ltok }.      (* tokens the client's acquire command has so far *)
Record ust := mkUS {
  u_cl : nat -> ucl;         (* client[] *)
  u_present : bool;          (* on the list "spaces" *)
  u_killing : bool;          (* sp->killing_pids *)
  u_hid : nat; u_gen : nat;  (* the host id held and its generation *)
  u_ext : bool;              (* SP_EXTERNAL_USED, or SP_USED_BY_ORPHANS and orphans exist *)
  u_scan : option (nat * bool); (* all_pids_dead: next client, stuck || check so far *)
  u_left : nat }.            (* times the watchdog was disarmed and the host id given back *)

Definition set_cl (f : nat -> ucl) (c : nat) (x : ucl) : nat -> ucl := fun d => if Nat.eqb d c then x else f d.
Definition uinit : ust := mkUS (fun _ => mkU false [] []) false false 0 0 false None 0.

Inductive uev :=
| UAdd (hid gen : nat)       (* the lockspace is added: delta_lease_acquire done *)
| URegister (c : nat)
| UInfo (c : nat)            (* cmd_acquire: lockspace_info, then acquire_token on disk *)
| ULink (c : nat)            (* the end of cmd_acquire, without earlier failure *)
| UUndo (c : nat)            (* the end of cmd_acquire after a failure *)
| URelease (c : nat) (f : ltok -> bool)
| UDie (c : nat)             (* client_pid_dead, first half *)
| UFree (c : nat)            (* the dead client's tokens are released, its slot freed *)
| UExt (b : bool)            (* external use or orphans come and go *)
| UFail                      (* main_loop sets killing_pids *)
| UScanStart | UScanNext | UScanEnd.

Definition no_scan (s : ust) : bool := match u_scan s with None => true | Some _ => false end.
Definition upd (s : ust) (c : nat) (x : ucl) : ust :=
  mkUS (set_cl (u_cl s) c x) (u_present s) (u_killing s) (u_hid s) (u_gen s) (u_ext s) (u_scan s) (u_left s).
Definition set_scan (s : ust) (x : option (nat * bool)) : ust :=
  mkUS (u_cl s) (u_present s) (u_killing s) (u_hid s) (u_gen s) (u_ext s) x (u_left s).

(* [n]: client_maxi + 1 *)
Definition ustep (n : nat) (s : ust) (e : uev) : option ust :=
  match e with
  | UAdd hid gen =>
    if no_scan s && negb (u_present s) && Nat.ltb (u_gen s) gen
    then Some (mkUS (u_cl s) true false hid gen (u_ext s) None (u_left s)) else None
  | URegister c =>
    if no_scan s && Nat.ltb c n && negb (u_live (u_cl s c)) && match u_toks (u_cl s c), u_work (u_cl s c) with [], [] => true | _, _ => false end
    then Some (upd s c (mkU true [] [])) else None
  | UInfo c =>
    (* cmd.c:400-411; then the token is acquired on disk with this host id and
       generation *)
    if no_scan s && u_present s && negb (u_killing s) && u_live (u_cl s c)
    then Some (upd s c (mkU (u_live (u_cl s c)) (u_toks (u_cl s c)) (mkLtok (u_hid s) (u_gen s) :: u_work (u_cl s c))))
    else None
  | ULink c =>
    (* cmd.c:502-548, check_new_tokens_space: the lockspace is there, not being
       killed, and has the host id of the token *)
    let x := u_cl s c in
    if no_scan s && u_live x && u_present s && negb (u_killing s) && forallb (fun t => Nat.eqb (lt_hid t) (u_hid s)) (u_work x)
    then Some (upd s c (mkU true (u_toks x ++ u_work x) [])) else None
  | UUndo c =>
    let x := u_cl s c in Some (upd s c (mkU (u_live x) (u_toks x) []))
  | URelease c f =>
    let x := u_cl s c in Some (upd s c (mkU (u_live x) (filter (fun t => negb (f t)) (u_toks x)) (u_work x)))
  | UDie c =>
    (* in the main thread, so not while it scans *)
    let x := u_cl s c in
    if no_scan s && u_live x then Some (upd s c (mkU false (u_toks x) (u_work x))) else None
  | UFree c =>
    let x := u_cl s c in
    if negb (u_live x) then Some (upd s c (mkU false [] [])) else None
  | UExt b => Some (mkUS (u_cl s) (u_present s) (u_killing s) (u_hid s) (u_gen s) b (u_scan s) (u_left s))
  | UFail =>
    if no_scan s && u_present s && negb (u_killing s)
    then Some (mkUS (u_cl s) true true (u_hid s) (u_gen s) (u_ext s) None (u_left s)) else None
  | UScanStart =>
    if no_scan s && u_present s && u_killing s then Some (set_scan s (Some (0, false))) else None
  | UScanNext =>
    match u_scan s with
    | Some (i, f) =>
      if Nat.ltb i n
      then let x := u_cl s i in
           Some (set_scan s (Some (S i, f || (u_live x && match u_toks x with [] => false | _ => true end))))
      else None
    | None => None
    end
  | UScanEnd =>
    match u_scan s with
    | Some (i, f) =>
      if Nat.ltb i n then None
      else if f || u_ext s then Some (set_scan s None)
      else (* 850-859: thread_stop, deactivate_watchdog, off the list *)
        Some (mkUS (u_cl s) false (u_killing s) (u_hid s) (u_gen s) (u_ext s) None (S (u_left s)))
    | None => None
    end
  end.
Fixpoint usteps (n : nat) (s : ust) (es : list uev) : option ust :=
  match es with [] => Some s | e :: r => match ustep n s e with Some s' => usteps n s' r | None => None end end.
