(* The resource thread and those who give it work: src/resource.c:938-1137
   _release_token (its list moves), 1156-1182 release_token_async, 2186-2207
   set_resource_examine, 2216-2233 find_resource_thread, 2252-2375
   resource_thread_release (its end), 2419-2449 add_host_event and find_host_event,
   2450-2568 resource_thread, 2570-2595 release_orphan, 2630-2638 rem_resources,
   2659-2666 close_token_manager, 1655-1760 and 1985 acquire_token (its list moves).

   A step is what is done while resource_mutex is held; the disk work of the thread is
   between two steps and its result is chosen by the environment, time passes in steps of
   its own.  A wakeup of the condition is not modelled, it is not needed: the thread may
   look at its loop condition at any time.  A resource is its number; one lockspace.
   Left out: what is written to the disks (Lvb.v, Release.v), the failed malloc of tt, the
   list of resources being acquired (they are on no list here until they are held), further
   holders of a shared lease. *)
From Coq Require Import List Arith Lia Bool.
Import ListNotations.

(* on resources_rem: released by release_token (no flag), waiting for the thread
   (R_THREAD_RELEASE), or in the hands of the thread (flag cleared) *)
Inductive by_ := Sync | Flagged | ByThread.
Record rem := mkRem { r_id : nat; r_by : by_; r_retry : nat; r_io : nat }.
(* on resources_held or resources_orphan; R_THREAD_EXAMINE *)
Record held := mkHeld { h_id : nat; h_exam : bool; h_io : nat }.
Inductive phase := Top | Sending (e : nat) | Releasing (id : nat) | Examining (id : nat) | Exited.
Inductive did := DSent (e : nat) | DTried (id : nat) | DDone (id : nat) | DExam (id : nat).

Record state := mkS { s_ev : list nat; s_rem : list rem; s_held : list held; s_orphan : list held;
  s_work : bool; s_workx : bool; s_stop : bool; s_ph : phase; s_now : nat; s_log : list did }.
Definition init : state := mkS [] [] [] [] false false false Top 0 [].

Inductive op :=
| OTick                                   (* a second *)
| OEvent (e : nat)                        (* add_host_event *)
| OExamine (which : option nat)           (* set_resource_examine of one resource or all *)
| OAcquire (id io : nat)                  (* acquire_token of a resource that is on no list *)
| OAdopt (id : nat)                       (* acquire_token of an orphan *)
| OAsync (id : nat)                       (* release_token_async, the process has died *)
| ODead (id : nat)                        (* release_token_async, the lockspace is dead *)
| OOrphan (id : nat)                      (* release_token_async of a persistent lease *)
| ORelOrphan (which : option nat)         (* release_orphan *)
| OSync (id : nat)                        (* release_token begins *)
| OSyncEnd (id : nat) (timeout : bool)    (* release_token ends *)
| OWake                                   (* rem_resources, once a second *)
| OStop                                   (* close_token_manager *)
| OThread (timeout : bool).               (* the thread goes on; result of its disk work *)

Definition is_id (id : nat) (h : held) : bool := h_id h =? id.
Definition is_rem (id : nat) (r : rem) : bool := r_id r =? id.
Definition drop_held (id : nat) (l : list held) := filter (fun h => negb (is_id id h)) l.
Definition drop_rem (id : nat) (l : list rem) := filter (fun r => negb (is_rem id r)) l.
Definition busy (s : state) (id : nat) : bool :=
  existsb (is_rem id) (s_rem s) || existsb (is_id id) (s_held s) || existsb (is_id id) (s_orphan s).
Definition selected (w : option nat) (id : nat) : bool := match w with None => true | Some k => id =? k end.

(* 2216-2233 with R_THREAD_RELEASE *)
Definition flagged (r : rem) : bool := match r_by r with Flagged => true | _ => false end.
Definition due (now : nat) (r : rem) : bool := flagged r && (r_retry r <=? now).
Definition set_by (id : nat) (b : by_) (l : list rem) : list rem :=
  map (fun r => if is_rem id r then mkRem (r_id r) b (r_retry r) (r_io r) else r) l.
(* 2512-2521 *)
Definition take (id now : nat) (l : list rem) : list rem :=
  map (fun r => if is_rem id r then
         mkRem (r_id r) ByThread (if r_retry r =? 0 then now + r_io r else now + r_io r * 2) (r_io r) else r) l.
Definition exam_all (w : option nat) (l : list held) : list held :=
  map (fun h => if selected w (h_id h) then mkHeld (h_id h) true (h_io h) else h) l.
Definition exam_off (id : nat) (l : list held) : list held :=
  map (fun h => if is_id id h then mkHeld (h_id h) false (h_io h) else h) l.

(* the fields that most steps keep *)
Definition set_lists (s : state) (r : list rem) (h o : list held) : state :=
  mkS (s_ev s) r h o (s_work s) (s_workx s) (s_stop s) (s_ph s) (s_now s) (s_log s).
Definition set_work (s : state) (w x : bool) : state :=
  mkS (s_ev s) (s_rem s) (s_held s) (s_orphan s) w x (s_stop s) (s_ph s) (s_now s) (s_log s).
Definition set_ph (s : state) (p : phase) (l : list did) : state :=
  mkS (s_ev s) (s_rem s) (s_held s) (s_orphan s) (s_work s) (s_workx s) (s_stop s) p (s_now s) (s_log s ++ l).
Definition set_ev (s : state) (l : list nat) : state :=
  mkS l (s_rem s) (s_held s) (s_orphan s) (s_work s) (s_workx s) (s_stop s) (s_ph s) (s_now s) (s_log s).

(* 2473-2563: the loop from the lock to the unlock *)
Definition thread_top (s : state) : state :=
  if negb (s_work s) then (if s_stop s then set_ph s Exited [] else s)
  else match s_ev s with
  | e :: q => set_ph (set_ev s q) (Sending e) []
  | [] =>
      match find (due (s_now s)) (s_rem s) with
      | Some r => set_ph (set_lists s (take (r_id r) (s_now s) (s_rem s)) (s_held s) (s_orphan s)) (Releasing (r_id r)) [DTried (r_id r)]
      | None =>
          match (if s_workx s then find h_exam (s_held s) else None) with
          | Some h => set_ph (set_lists s (s_rem s) (exam_off (h_id h) (s_held s)) (s_orphan s)) (Examining (h_id h)) []
          | None => set_work s false false
          end
      end
  end.

Definition thread (s : state) (timeout : bool) : state :=
  match s_ph s with
  | Top => thread_top s
  | Sending e => set_ph s Top [DSent e]
  | Releasing id =>
      (* 2358-2374 *)
      if timeout then set_ph (set_lists s (set_by id Flagged (s_rem s)) (s_held s) (s_orphan s)) Top []
      else set_ph (set_lists s (drop_rem id (s_rem s)) (s_held s) (s_orphan s)) Top [DDone id]
  | Examining id => set_ph s Top [DExam id]
  | Exited => s
  end.

(* list_move puts at the head *)
Definition to_rem (s : state) (h : held) (b : by_) : list rem := mkRem (h_id h) b 0 (h_io h) :: s_rem s.

Definition step (s : state) (o : op) : state :=
  match o with
  | OTick => mkS (s_ev s) (s_rem s) (s_held s) (s_orphan s) (s_work s) (s_workx s) (s_stop s) (s_ph s) (S (s_now s)) (s_log s)
  | OEvent e => set_work (set_ev s (s_ev s ++ [e])) true (s_workx s)
  | OExamine w =>
      if existsb (fun h => selected w (h_id h)) (s_held s)
      then set_work (set_lists s (s_rem s) (exam_all w (s_held s)) (s_orphan s)) true true else s
  | OAcquire id io => if busy s id then s else set_lists s (s_rem s) (mkHeld id false io :: s_held s) (s_orphan s)
  | OAdopt id =>
      if existsb (is_rem id) (s_rem s) || existsb (is_id id) (s_held s) then s
      else match find (is_id id) (s_orphan s) with
           | Some h => set_lists s (s_rem s) (h :: s_held s) (drop_held id (s_orphan s))
           | None => s
           end
  | OAsync id =>
      match find (is_id id) (s_held s) with
      | Some h => set_work (set_lists s (to_rem s h Flagged) (drop_held id (s_held s)) (s_orphan s)) true (s_workx s)
      | None => s
      end
  | ODead id => set_lists s (s_rem s) (drop_held id (s_held s)) (s_orphan s)
  | OOrphan id =>
      match find (is_id id) (s_held s) with
      | Some h => set_lists s (s_rem s) (drop_held id (s_held s)) (h :: s_orphan s)
      | None => s
      end
  | ORelOrphan w =>
      let (yes, no) := partition (fun h => selected w (h_id h)) (s_orphan s) in
      match yes with
      | [] => s
      | _ => set_work (set_lists s (rev (map (fun h => mkRem (h_id h) Flagged 0 (h_io h)) yes) ++ s_rem s) (s_held s) no) true (s_workx s)
      end
  | OSync id =>
      match find (is_id id) (s_held s) with
      | Some h => set_lists s (to_rem s h Sync) (drop_held id (s_held s)) (s_orphan s)
      | None => s
      end
  | OSyncEnd id timeout =>
      if existsb (fun r => is_rem id r && match r_by r with Sync => true | _ => false end) (s_rem s)
      then set_lists s (if timeout then set_by id Flagged (s_rem s) else drop_rem id (s_rem s)) (s_held s) (s_orphan s)
      else s
  | OWake => if match s_rem s with [] => true | _ => s_work s end then s else set_work s true (s_workx s)
  | OStop => mkS (s_ev s) (s_rem s) (s_held s) (s_orphan s) (s_work s) (s_workx s) true (s_ph s) (s_now s) (s_log s)
  | OThread t => thread s t
  end.
Definition run (s : state) (os : list op) : state := fold_left step os s.
