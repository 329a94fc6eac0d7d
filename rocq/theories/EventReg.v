(* Registrations for host events: lockspace_reg_event, lockspace_end_event,
   send_event_callbacks (src/lockspace.c:1698-1803, 1881-1938), cmd_reg_event (src/cmd.c:2945-2975), the queue between the main
   thread and the resource thread (src/resource.c:2411-2490), and the life of the struct
   space they work on (src/main.c:844-929, src/lockspace.c:608-620, 1037, 1971-2059).

   The steps of the main thread, the resource thread, the lockspace threads and the worker
   threads interleave.  A step is what is done under one mutex: the search under
   spaces_mutex and the work under sp->mutex are separate steps.  The answers of dup, recv
   and send are chosen by the environment; EINTR is a loop around the same call and not a
   step of its own.

   Simplified: the contents of an event are one number; spaces_add is left out (a space
   appears when it is put on the spaces list); the replies to failed requests are left out; a struct space is identified by its space_id,
   the address of a freed one is not reused.  lockspace_set_event and host_status_set_bit
   only look at the part that finds and then uses the structure (WLook, WUse); their effect
   is in HostEvent.v. *)
From Coq Require Import List ZArith Lia Bool Arith.
Import ListNotations.
Open Scope Z_scope.

(* src/sanlock_internal.h MAX_EVENT_FDS *)
Definition MAX_EVENT_FDS : nat := 32.
Definition ENOENT : Z := 2.
Definition ENOCSI : Z := 50.

(* struct space: the list it is on, thread_stop, whether the thread has ended, event_fds *)
Inductive where_ := OnSpaces | OnRem.
Record space := mkSp { sp_name : Z; sp_list : where_; sp_exited : bool; sp_fds : list Z }.

(* recv of the 4 bytes of end, MSG_DONTWAIT *)
Inductive rans := RAgain | RVal (v : Z) | RShort | REof | RErr.
(* send of sizeof(struct event_cb), MSG_DONTWAIT *)
Inductive sans := SFail | STook (n : Z).
Definition CB_SIZE : Z := 80.

(* where the main thread is in reg_event or end_event *)
Inductive mpc := MIdle | MReg (id : nat) (retried : bool) | MRegClean (id : nat)
  | MReply (d : Z) | MEnd (id : nat).
(* where the resource thread is with an event *)
Inductive rpc := RIdle | RHas (id : nat) (ev : Z) | RGot (id : nat) (ev : Z).

Record state := mkS {
  st_spaces : list (nat * space);
  st_next : nat;                      (* space_id_counter *)
  st_open : list Z;                   (* the descriptors made by dup that are open *)
  st_queue : list (nat * Z);          (* host_events *)
  st_main : mpc;
  st_res : rpc;
  st_held : nat -> option nat }.      (* worker threads: the space found *)

Definition init : state := mkS [] 1 [] [] MIdle RIdle (fun _ => None).

Inductive action :=
| AAdd (name : Z)                     (* worker: the space is put on spaces *)
| AEvent (id : nat) (ev : Z) (mem : bool)   (* main: add_host_event; mem: malloc *)
| AMove (id : nat)                    (* main: list_move to spaces_rem *)
| AExit (id : nat)                    (* lockspace thread: close_event_fds, end *)
| AFree (id : nat)                    (* main: free_lockspaces *)
| ARegLook (name : Z)
| ARegScan (dup : Z)                  (* -1: dup failed *)
| ARegClean (ans : Z -> rans)
| AReply                              (* cmd_reg_event: send_all of the result *)
| AEndLook (name : Z)
| AEndClean (ans : Z -> rans)
| APop
| ALook
| ASend (ans : Z -> sans)
| AWLook (t : nat) (name : Z)
| AWUse (t : nat).

Inductive out :=
| OAccept (id : nat) (ev : Z)         (* put on the queue *)
| ODispatch (id : nat) (ev : Z)       (* the loop over the descriptors is run *)
| ODrop (id : nat) (ev : Z)           (* -ENOSPC *)
| OReg (id : nat) (d : Z)             (* stored in event_fds *)
| OClose (d : Z)
| OTook (d ev n : Z)                  (* n bytes of an event were taken for descriptor d *)
| OReply (d : Z)                      (* the result of reg_event, on the same connection *)
| ORegRv (rv : Z) | OEndRv (rv : Z).

Inductive result := Ub | Next (s : state) (o : list out).

Fixpoint get (id : nat) (l : list (nat * space)) : option space :=
  match l with
  | [] => None
  | (i, sp) :: l => if (i =? id)%nat then Some sp else get id l
  end.
Definition put (id : nat) (sp : space) (l : list (nat * space)) : list (nat * space) :=
  map (fun x => if (fst x =? id)%nat then (id, sp) else x) l.
Definition drop (id : nat) (l : list (nat * space)) : list (nat * space) :=
  filter (fun x => negb (fst x =? id)%nat) l.

Definition on_spaces (sp : space) : bool :=
  match sp_list sp with OnSpaces => true | OnRem => false end.
(* _search_space(name, ..., &spaces, NULL, NULL, NULL), lockspace.c:88-146 *)
Fixpoint find_name (name : Z) (l : list (nat * space)) : option nat :=
  match l with
  | [] => None
  | (i, sp) :: l => if on_spaces sp && (sp_name sp =? name) then Some i else find_name name l
  end.
(* find_lockspace_id, lockspace.c:161-170 *)
Definition find_id (id : nat) (l : list (nat * space)) : bool :=
  match get id l with Some sp => on_spaces sp | None => false end.

Definition used (d : Z) : bool := negb (d =? -1).
Definition del (l gone : list Z) : list Z :=
  filter (fun d => negb (existsb (Z.eqb d) gone)) l.

(* lockspace.c:1705-1730: is the registration dropped after this answer *)
Definition ended (a : rans) : bool :=
  match a with
  | RAgain => false
  | RVal v => v =? 1
  | RShort | REof | RErr => true
  end.
(* _clean_event_fds, lockspace.c:1698-1735 *)
Definition clean (ans : Z -> rans) (fds : list Z) : list Z * list Z :=
  (map (fun d => if used d && ended (ans d) then -1 else d) fds,
   filter (fun d => used d && ended (ans d)) fds).

(* lockspace.c:1919-1934 *)
Fixpoint callbacks (ans : Z -> sans) (ev : Z) (fds : list Z) : list Z * list out :=
  match fds with
  | [] => ([], [])
  | d :: fds =>
      let (fds', o) := callbacks ans ev fds in
      if used d then
        match ans d with
        | SFail => (-1 :: fds', OClose d :: o)
        | STook n => (d :: fds', OTook d ev n :: o)
        end
      else (d :: fds', o)
  end.
Definition closed (o : list out) : list Z :=
  flat_map (fun x => match x with OClose d => [d] | _ => [] end) o.

(* lockspace.c:1780-1790: the first free entry takes the new descriptor *)
Fixpoint store (d : Z) (fds : list Z) : option (list Z) :=
  match fds with
  | [] => None
  | x :: fds => if used x then option_map (cons x) (store d fds) else Some (d :: fds)
  end.

Definition set_fds (sp : space) (fds : list Z) : space :=
  mkSp (sp_name sp) (sp_list sp) (sp_exited sp) fds.
Definition upd_space (s : state) (id : nat) (sp : space) : state :=
  mkS (put id sp (st_spaces s)) (st_next s) (st_open s) (st_queue s) (st_main s) (st_res s) (st_held s).
Definition set_open (s : state) (l : list Z) : state :=
  mkS (st_spaces s) (st_next s) l (st_queue s) (st_main s) (st_res s) (st_held s).
Definition set_main (s : state) (p : mpc) : state :=
  mkS (st_spaces s) (st_next s) (st_open s) (st_queue s) p (st_res s) (st_held s).
Definition set_res (s : state) (p : rpc) : state :=
  mkS (st_spaces s) (st_next s) (st_open s) (st_queue s) (st_main s) p (st_held s).
Definition set_queue (s : state) (q : list (nat * Z)) : state :=
  mkS (st_spaces s) (st_next s) (st_open s) q (st_main s) (st_res s) (st_held s).
Definition hold (s : state) (t : nat) (h : option nat) : state :=
  mkS (st_spaces s) (st_next s) (st_open s) (st_queue s) (st_main s) (st_res s)
      (fun t' => if (t' =? t)%nat then h else st_held s t').

Definition main_idle (s : state) : bool := match st_main s with MIdle => true | _ => false end.
Definition name_used (name : Z) (l : list (nat * space)) : bool :=
  existsb (fun x => sp_name (snd x) =? name) l.

(* _clean_event_fds on the space id, then the next place of the main thread *)
Definition clean_step (s : state) (id : nat) (sp : space) (ans : Z -> rans)
                      (k : nat -> mpc * list out) : result :=
  let (fds', gone) := clean ans (sp_fds sp) in
  let (p, o) := k (length gone) in
  Next (set_main (set_open (upd_space s id (set_fds sp fds')) (del (st_open s) gone)) p)
       (map OClose gone ++ o).

Definition step (s : state) (a : action) : option result :=
  match a with
  | AAdd name =>
      if name_used name (st_spaces s) then None
      else Some (Next (mkS ((st_next s, mkSp name OnSpaces false (repeat (-1) MAX_EVENT_FDS)) :: st_spaces s)
                           (S (st_next s)) (st_open s) (st_queue s) (st_main s) (st_res s) (st_held s)) [])
  | AEvent id ev mem =>                               (* check_other_leases in main_loop *)
      if main_idle s && find_id id (st_spaces s)
      then Some (if mem then Next (set_queue s (st_queue s ++ [(id, ev)])) [OAccept id ev]
                 else Next s [])
      else None
  | AMove id =>                                       (* main.c:850-864 *)
      match get id (st_spaces s) with
      | Some sp =>
          if main_idle s && on_spaces sp
          then Some (Next (upd_space s id (mkSp (sp_name sp) OnRem (sp_exited sp) (sp_fds sp))) [])
          else None
      | None => None
      end
  | AExit id =>                                       (* thread_stop was set by AMove *)
      match get id (st_spaces s) with
      | Some sp =>
          if negb (on_spaces sp) && negb (sp_exited sp)
          then let gone := filter used (sp_fds sp) in
               Some (Next (set_open (upd_space s id (mkSp (sp_name sp) (sp_list sp) true
                                                          (map (fun _ => -1) (sp_fds sp))))
                                    (del (st_open s) gone))
                          (map OClose gone))
          else None
      | None => None
      end
  | AFree id =>                                       (* lockspace.c:2050-2057 *)
      match get id (st_spaces s) with
      | Some sp =>
          if main_idle s && negb (on_spaces sp) && sp_exited sp
          then Some (Next (mkS (drop id (st_spaces s)) (st_next s) (st_open s) (st_queue s) (st_main s)
                               (st_res s) (st_held s)) [])
          else None
      | None => None
      end
  | ARegLook name =>                                  (* lockspace.c:1770-1777 *)
      if main_idle s then
        match find_name name (st_spaces s) with
        | None => Some (Next s [ORegRv (- ENOENT)])
        | Some id => Some (Next (set_main s (MReg id false)) [])
        end
      else None
  | ARegScan d =>                                     (* 1778-1802 *)
      match st_main s with
      | MReg id retried =>
          match get id (st_spaces s) with
          | None => Some Ub
          | Some sp =>
              if ((d =? -1) || ((0 <=? d) && negb (existsb (Z.eqb d) (st_open s)))) then
                match (if d =? -1 then None else store d (sp_fds sp)) with
                | Some fds' =>
                    Some (Next (set_main (set_open (upd_space s id (set_fds sp fds')) (d :: st_open s)) (MReply d))
                               [OReg id d; ORegRv 0])
                | None =>
                    if retried then Some (Next (set_main s MIdle) [ORegRv (- ENOCSI)])
                    else Some (Next (set_main s (MRegClean id)) [])
                end
              else None
          end
      | _ => None
      end
  | ARegClean ans =>                                  (* 1795-1799 *)
      match st_main s with
      | MRegClean id =>
          match get id (st_spaces s) with
          | None => Some Ub
          | Some sp =>
              Some (clean_step s id sp ans (fun n =>
                if (n =? 0)%nat then (MIdle, [ORegRv (- ENOCSI)]) else (MReg id true, [])))
          end
      | _ => None
      end
  | AReply =>                                         (* cmd.c:2969-2974; d is a dup of the connection *)
      match st_main s with
      | MReply d => Some (Next (set_main s MIdle) [OReply d])
      | _ => None
      end
  | AEndLook name =>                                  (* 1748-1753 *)
      if main_idle s then
        match find_name name (st_spaces s) with
        | None => Some (Next s [OEndRv (- ENOENT)])
        | Some id => Some (Next (set_main s (MEnd id)) [])
        end
      else None
  | AEndClean ans =>                                  (* 1755-1756 *)
      match st_main s with
      | MEnd id =>
          match get id (st_spaces s) with
          | None => Some Ub
          | Some sp => Some (clean_step s id sp ans (fun _ => (MIdle, [OEndRv 0])))
          end
      | _ => None
      end
  | APop =>                                           (* resource.c:2483-2486 *)
      match st_res s, st_queue s with
      | RIdle, (id, ev) :: q => Some (Next (set_res (set_queue s q) (RHas id ev)) [])
      | _, _ => None
      end
  | ALook =>                                          (* lockspace.c:1908-1915 *)
      match st_res s with
      | RHas id ev =>
          if find_id id (st_spaces s) then Some (Next (set_res s (RGot id ev)) [])
          else Some (Next (set_res s RIdle) [ODrop id ev])
      | _ => None
      end
  | ASend ans =>                                      (* lockspace.c:1917-1935 *)
      match st_res s with
      | RGot id ev =>
          match get id (st_spaces s) with
          | None => Some Ub
          | Some sp =>
              let (fds', o) := callbacks ans ev (sp_fds sp) in
              Some (Next (set_res (set_open (upd_space s id (set_fds sp fds')) (del (st_open s) (closed o))) RIdle)
                         (ODispatch id ev :: o))
          end
      | _ => None
      end
  | AWLook t name =>                                  (* lockspace.c:1819-1825, host_status_set_bit *)
      match st_held s t with
      | None =>
          match find_name name (st_spaces s) with
          | None => Some (Next s [])
          | Some id => Some (Next (hold s t (Some id)) [])
          end
      | Some _ => None
      end
  | AWUse t =>                                        (* lockspace.c:1827-1878 *)
      match st_held s t with
      | Some id =>
          match get id (st_spaces s) with
          | None => Some Ub
          | Some _ => Some (Next (hold s t None) [])
          end
      | None => None
      end
  end.

(* a run: the actions, the state and all output so far, oldest first *)
Inductive run : list action -> state -> list out -> Prop :=
| run_init : run [] init []
| run_step h s tr a s' o :
    run h s tr -> step s a = Some (Next s' o) -> run (h ++ [a]) s' (tr ++ o).

(* what arrives at the other end of descriptor d after it was registered: the events
   (struct event_cb, sanlock_sock.h:99-104) and the reply (struct sm_header), as bytes *)
Fixpoint stream (enc : Z -> list Z) (reply : list Z) (d : Z) (tr : list out) : list Z :=
  match tr with
  | [] => []
  | OTook d' ev n :: tr =>
      (if d' =? d then firstn (Z.to_nat n) (enc ev) else []) ++ stream enc reply d tr
  | OReply d' :: tr => (if d' =? d then reply else []) ++ stream enc reply d tr
  | _ :: tr => stream enc reply d tr
  end.

(* sanlock_reg_event reads a header (src/client.c:829-842), sanlock_get_event reads one
   struct event_cb at a time (src/client.c:986-1000); fuel: the number of calls *)
Fixpoint get_events (fuel : nat) (bytes : list Z) : list (list Z) :=
  match fuel with
  | O => []
  | S fuel =>
      if (length bytes <? 80)%nat then []
      else firstn 80 bytes :: get_events fuel (skipn 80 bytes)
  end.
Definition client_reads (bytes : list Z) : list (list Z) :=
  get_events (length bytes) (skipn 32 bytes).
