(* The life of lockspaces in the daemon and the commands that wait for it.
   src/cmd.c:1237-1300 (shutdown), 1302-1353 (cmd_add_lockspace), 1355-1391
   (cmd_inq_lockspace), 1433-1483 (cmd_rem_lockspace), 3078-3095 (SM_CMD_SHUTDOWN),
   src/lockspace.c:749-1040 (lockspace_thread: the points at which it publishes its
   result, sets the generation, looks at thread_stop and ends), 1196-1256
   (add_lockspace_wait), 1258-1284 (inq_lockspace), 1354-1374 (rem_lockspace_wait),
   1949-1970 (stop_lockspace_thread), 2044-2060 (free_lockspaces), src/main.c:838-935
   (main_loop: the checks, the end and the shutdown flag), 1419-1424 (sigterm_handler),
   src/resource.c:1203-1229 (lockspace_is_used).

   The lists and the start of add and remove are those of Lockspaces.v.  What is done
   under spaces_mutex is one step; everything between two steps of one thread may be
   interleaved with the steps of all others.  Simplifications: creating the thread
   succeeds; the pids of a lockspace are gone when the step says so (C44 has the
   processes); resources are the names of their lockspaces. *)
From Coq Require Import List NArith ZArith Lia Bool ZifyBool ZifyN.
From Verif Require Import Bytes Codec Leader Lockspaces.
Import ListNotations.
Open Scope N_scope.

(* what the daemon shares with the thread of a lockspace: acquire_last_result (None: 0),
   host_generation has been set, thread_stop, and whether the thread has ended.  With
   thread_stop the watchdog connection has been deactivated. *)
Record thr := mkThr { t_res : option bool; t_gen : bool; t_stop : bool; t_exit : bool }.
Definition thr0 : thr := mkThr None false false false.

(* where a worker thread is *)
Inductive wait :=
| WAdd (ls : space) (id : N) (async : bool)    (* add_lockspace_wait, first loop *)
| WUndo (id : N) (async : bool)                (* joining the thread after undo *)
| WChk (ls : space) (async : bool)             (* after lockspace_is_used *)
| WRem (ls : space) (id : N) (async : bool).   (* rem_lockspace_wait *)

Inductive answer :=
| ASync (rv : ls_rv)       (* result of the start, an error; or of a command that does not wait *)
| AStarted (id : N)        (* async: 0 before the work is done *)
| AAdded (id : N)          (* add: 0 *)
| AAddFail (id : N)        (* add: the thread's error, or -1 *)
| ARemoved (id : N)        (* remove: 0 *)
| AShut.                   (* shutdown with wait: 0 *)

(* main_loop: before the check, after it with its local [empty], after the loop, and
   after daemon_shutdown_reply *)
Inductive phase := PIdle | PTest (empty : bool) | PEnd | PDone.

Record sys := mkSys {
  y_sp : spaces; y_shut : N; y_thr : N -> thr; y_phase : phase;
  y_wait : list (N * wait);       (* client and worker *)
  y_reply : option N;             (* shutdown_reply_fd *)
  y_log : list (N * answer);      (* answers, newest first *)
  y_used : list bytes             (* lockspace names of the resources on the lists *)
}.

Definition sys0 : sys := mkSys ls_init 0 (fun _ => thr0) PIdle [] None [] [].

Inductive ev :=
| EAdd (c : N) (async : bool) (ls : space)
| EJoin (id : N) (ok : bool)       (* set_status *)
| EGen (id : N)                    (* sp->host_generation = ... *)
| EExit (id : N)
| EWaitAdd (k : nat)
| EUndo (k : nat)
| EUnused (c : N) (async : bool) (ls : space)
| EChkRem (k : nat)
| ERem (c : N) (async : bool) (ls : space)
| EWaitRem (k : nat)
| EInq (c : N) (ls : space)
| EAcq (nm : bytes) | ERel (nm : bytes)
| EPass (gone fail : N -> bool)
| ETest
| EFree (id : N)
| EEnd
| ESigterm
| EShut (force : bool)             (* SM_CMD_SHUTDOWN, by the main thread *)
| EShutWait (c : N) (force : bool).

(* the k-th worker, and the others *)
Fixpoint take {A} (k : nat) (l : list A) : option (A * list A) :=
  match l, k with
  | [], _ => None
  | x :: r, O => Some (x, r)
  | x :: r, S k' => match take k' r with Some (y, r') => Some (y, x :: r') | None => None end
  end.

Definition set_thr (f : N -> thr) (id : N) (t : thr) : N -> thr := fun i => if i =? id then t else f i.
Definition stop_thr (f : N -> thr) (ids : list N) : N -> thr :=
  fun i => if existsb (N.eqb i) ids then mkThr (t_res (f i)) (t_gen (f i)) true (t_exit (f i)) else f i.

Definition ident (ls : space) (heads : list (list space)) : option space :=
  search_space (Some (sp_name ls)) (Some (sp_path ls, sp_offset ls)) (sp_host_id ls) heads.

(* the space_id rem_lockspace_start gives back *)
Definition rem_id (st : spaces) (ls : space) : N :=
  match ident ls [s_add st] with
  | Some sp => sp_id sp
  | None => match ident ls [s_spaces st] with Some sp => sp_id sp | None => 0 end
  end.

(* lockspace.c:1258-1284 *)
Definition inq_lockspace (st : spaces) (ls : space) : ls_rv :=
  match ident ls [s_spaces st] with
  | Some _ => LsOk
  | None => match ident ls [s_add st; s_rem st] with Some _ => LsEINPROGRESS | None => LsENOENT end
  end.

Definition lists_empty (st : spaces) : bool :=
  match s_spaces st, s_rem st, s_add st with [], [], [] => true | _, _, _ => false end.

(* main.c:845-907 *)
Definition moved (gone : N -> bool) (l : list space) : list space :=
  filter (fun sp => sp_dead sp && gone (sp_id sp)) l.
Definition checked (shut : N) (fail : N -> bool) (sp : space) : space :=
  if sp_dead sp then sp
  else if fail (sp_id sp) || sp_external_remove sp || (1 <? shut) then upd_dead sp else sp.
Definition pass (st : spaces) (shut : N) (gone fail : N -> bool) : spaces :=
  mkSpaces (map (checked shut fail) (filter (fun sp => negb (sp_dead sp && gone (sp_id sp))) (s_spaces st)))
           (s_add st) (rev (moved gone (s_spaces st)) ++ s_rem st) (s_next_id st).

(* cmd.c:1460-1478 *)
Definition do_rem (s : sys) (w : list (N * wait)) (c : N) (async : bool) (ls : space) : sys :=
  match rem_lockspace_start (y_sp s) ls with
  | (LsOk, st) =>
      let id := rem_id (y_sp s) ls in
      mkSys st (y_shut s) (y_thr s) (y_phase s) ((c, WRem ls id async) :: w) (y_reply s)
            (if async then (c, AStarted id) :: y_log s else y_log s) (y_used s)
  | (rv, _) => mkSys (y_sp s) (y_shut s) (y_thr s) (y_phase s) w (y_reply s) ((c, ASync rv) :: y_log s) (y_used s)
  end.

Definition answer_if (async : bool) (c : N) (a : answer) (l : list (N * answer)) :=
  if async then l else (c, a) :: l.

Definition ystep (s : sys) (e : ev) : option sys :=
  let st := y_sp s in
  let upd_log l := mkSys st (y_shut s) (y_thr s) (y_phase s) (y_wait s) (y_reply s) l (y_used s) in
  let upd_thr f := mkSys st (y_shut s) f (y_phase s) (y_wait s) (y_reply s) (y_log s) (y_used s) in
  match e with
  | EAdd c async ls =>
      match add_lockspace_start st ls with
      | (LsOk, st') =>
          let id := s_next_id st in
          Some (mkSys st' (y_shut s) (set_thr (y_thr s) id thr0) (y_phase s)
                  ((c, WAdd ls id async) :: y_wait s) (y_reply s)
                  (if async then (c, AStarted id) :: y_log s else y_log s) (y_used s))
      | (rv, _) => Some (upd_log ((c, ASync rv) :: y_log s))
      end
  | EJoin id ok =>
      match with_id id (s_add st), t_res (y_thr s id) with
      | _ :: _, None => Some (upd_thr (set_thr (y_thr s) id (mkThr (Some ok) false false false)))
      | _, _ => None
      end
  | EGen id =>
      let t := y_thr s id in
      match t_res t, t_exit t with
      | Some true, false => Some (upd_thr (set_thr (y_thr s) id (mkThr (t_res t) true (t_stop t) false)))
      | _, _ => None
      end
  | EExit id =>
      let t := y_thr s id in
      match t_res t with
      | Some ok => if (negb ok || (t_stop t && t_gen t)) && negb (t_exit t)
                   then Some (upd_thr (set_thr (y_thr s) id (mkThr (t_res t) (t_gen t) (t_stop t) true)))
                   else None
      | None => None
      end
  | EWaitAdd k =>
      match take k (y_wait s) with
      | Some ((c, WAdd ls id async), w) =>
          let t := y_thr s id in
          match t_res t with
          | None => None
          | Some false =>                                              (* 1209-1215 *)
              if t_exit t
              then Some (mkSys (add_wait_fail st id) (y_shut s) (y_thr s) (y_phase s) w (y_reply s)
                           (answer_if async c (AAddFail id) (y_log s)) (y_used s))
              else None
          | Some true =>
              if existsb sp_external_remove (with_id id (s_add st)) || negb (y_shut s =? 0)
              then Some (mkSys st (y_shut s) (stop_thr (y_thr s) [id]) (y_phase s)
                           ((c, WUndo id async) :: w) (y_reply s) (y_log s) (y_used s))
              else Some (mkSys (mkSpaces (with_id id (s_add st) ++ s_spaces st) (remove_id id (s_add st))
                                  (s_rem st) (s_next_id st))
                           (y_shut s) (y_thr s) (y_phase s) w (y_reply s)
                           (answer_if async c (AAdded id) (y_log s)) (y_used s))
          end
      | _ => None
      end
  | EUndo k =>
      match take k (y_wait s) with
      | Some ((c, WUndo id async), w) =>
          if t_exit (y_thr s id)
          then Some (mkSys (add_wait_fail st id) (y_shut s) (y_thr s) (y_phase s) w (y_reply s)
                       (answer_if async c (AAddFail id) (y_log s)) (y_used s))
          else None
      | _ => None
      end
  | EUnused c async ls =>
      if existsb (fun n => strncmp_eq NAME_ID_SIZE n (sp_name ls)) (y_used s)
      then Some (upd_log ((c, ASync LsEBUSY) :: y_log s))
      else Some (mkSys st (y_shut s) (y_thr s) (y_phase s) ((c, WChk ls async) :: y_wait s)
                   (y_reply s) (y_log s) (y_used s))
  | EChkRem k =>
      match take k (y_wait s) with
      | Some ((c, WChk ls async), w) => Some (do_rem s w c async ls)
      | _ => None
      end
  | ERem c async ls => Some (do_rem s (y_wait s) c async ls)
  | EWaitRem k =>
      match take k (y_wait s) with
      | Some ((c, WRem ls id async), w) =>
          let fin := Some (mkSys st (y_shut s) (y_thr s) (y_phase s) w (y_reply s)
                             (answer_if async c (ARemoved id) (y_log s)) (y_used s)) in
          match ident ls [s_spaces st; s_rem st; s_add st] with
          | Some sp => if sp_id sp =? id then None else fin
          | None => fin
          end
      | _ => None
      end
  | EInq c ls => Some (upd_log ((c, ASync (inq_lockspace st ls)) :: y_log s))
  | EAcq nm =>
      match search_space (Some nm) None 0 [s_spaces st] with
      | Some sp => if sp_dead sp then None
                   else Some (mkSys st (y_shut s) (y_thr s) (y_phase s) (y_wait s) (y_reply s) (y_log s)
                                (nm :: y_used s))
      | None => None
      end
  | ERel nm => Some (mkSys st (y_shut s) (y_thr s) (y_phase s) (y_wait s) (y_reply s) (y_log s)
                       (filter (fun n => negb (strncmp_eq NAME_ID_SIZE n nm)) (y_used s)))
  | EPass gone fail =>
      match y_phase s with
      | PIdle =>
          let st' := pass st (y_shut s) gone fail in
          Some (mkSys st' (y_shut s) (stop_thr (y_thr s) (map sp_id (moved gone (s_spaces st))))
                  (PTest (match s_spaces st' with [] => true | _ => false end))
                  (y_wait s) (y_reply s) (y_log s) (y_used s))
      | _ => None
      end
  | ETest =>
      match y_phase s with
      | PTest empty =>
          if negb (y_shut s =? 0) && empty                              (* main.c:910 *)
          then Some (mkSys st (y_shut s) (y_thr s) PEnd (y_wait s) (y_reply s) (y_log s) (y_used s))
          else Some (mkSys st (if y_shut s =? 1 then 0 else y_shut s) (y_thr s) PIdle
                       (y_wait s) (y_reply s) (y_log s) (y_used s))
      | _ => None
      end
  | EFree id =>
      match y_phase s, with_id id (s_rem st) with
      | PIdle, _ :: _ =>
          if t_exit (y_thr s id)
          then Some (mkSys (free_lockspace st id) (y_shut s) (y_thr s) PIdle (y_wait s) (y_reply s) (y_log s) (y_used s))
          else None
      | _, _ => None
      end
  | EEnd =>
      match y_phase s with
      | PEnd =>
          if forallb (fun sp => t_exit (y_thr s (sp_id sp))) (s_rem st)
          then Some (mkSys (mkSpaces (s_spaces st) (s_add st) [] (s_next_id st)) (y_shut s) (y_thr s) PDone
                       (y_wait s) None
                       (match y_reply s with Some c => (c, AShut) :: y_log s | None => y_log s end) (y_used s))
          else None
      | _ => None
      end
  | ESigterm => Some (mkSys st 1 (y_thr s) (y_phase s) (y_wait s) (y_reply s) (y_log s) (y_used s))
  | EShut force =>
      match y_phase s with
      | PIdle =>
          Some (mkSys st (if force then 2 else if lists_empty st then 1 else y_shut s) (y_thr s) (y_phase s)
                  (y_wait s) (y_reply s) (y_log s) (y_used s))
      | _ => None
      end
  | EShutWait c force =>
      if force || lists_empty st
      then Some (mkSys st (if force then 2 else 1) (y_thr s) (y_phase s) (y_wait s) (Some c) (y_log s) (y_used s))
      else Some (upd_log ((c, ASync LsEBUSY) :: y_log s))
  end.

Fixpoint yrun (s : sys) (es : list ev) : option sys :=
  match es with
  | [] => Some s
  | e :: r => match ystep s e with Some s' => yrun s' r | None => None end
  end.
