(* The daemon's lockspace lists.
   src/lockspace.c:121-154 (_search_space), 1052-1194 (add_lockspace_start),
   1196-1256 (add_lockspace_wait), 1286-1350 (rem_lockspace_start),
   src/main.c:844-865 (main_loop: move to spaces_rem), src/lockspace.c:2044-2060
   (free_lockspaces).
   All list changes happen under spaces_mutex, so each operation is atomic.
   A space on the lists carries a unique space_id; list positions stand for
   the pointers held by the threads. *)
From Coq Require Import List NArith ZArith Lia Bool ZifyBool ZifyN.
From Verif Require Import Bytes Codec Leader.
Import ListNotations.
Open Scope N_scope.

Definition SANLK_PATH_LEN : nat := 1024.

(* the part of struct space / struct sanlk_lockspace that matters here *)
Record space := mkSpace {
  sp_name : bytes; sp_path : bytes; sp_offset : N; sp_host_id : N;
  sp_id : N;                     (* space_id *)
  sp_external_remove : bool; sp_dead : bool (* space_dead *);
  sp_rindex_op : bool }.

Record spaces := mkSpaces {
  s_spaces : list space; s_add : list space; s_rem : list space;
  s_next_id : N                  (* space_id_counter *)
}.

(* the three optional filters of _search_space *)
Definition match_name (name : option bytes) (sp : space) : bool :=
  match name with None => true | Some n => strncmp_eq NAME_ID_SIZE (sp_name sp) n end.
Definition match_disk (disk : option (bytes * N)) (sp : space) : bool :=
  match disk with
  | None => true
  | Some (p, o) => strncmp_eq SANLK_PATH_LEN (sp_path sp) p && (sp_offset sp =? o)
  end.
Definition match_host_id (host_id : N) (sp : space) : bool :=
  (host_id =? 0) || (sp_host_id sp =? host_id).

Definition search_space (name : option bytes) (disk : option (bytes * N)) (host_id : N)
           (heads : list (list space)) : option space :=
  find (fun sp => match_name name sp && match_disk disk sp && match_host_id host_id sp) (concat heads).

Inductive ls_rv := LsOk | LsEINVAL | LsEEXIST | LsEINPROGRESS | LsEAGAIN | LsENOENT | LsEBUSY | LsENOSPC.

Definition is_empty (b : bytes) : bool := match b with [] => true | x :: _ => x =? 0 end.

(* thread creation failure is not modelled: it only removes the entry again
   (covered by OpAddFail) *)
Definition add_lockspace_start (st : spaces) (ls : space) : ls_rv * spaces :=
  if is_empty (sp_name ls) || (sp_host_id ls =? 0) || is_empty (sp_path ls) then (LsEINVAL, st)
  else
    let id h := search_space (Some (sp_name ls)) (Some (sp_path ls, sp_offset ls)) (sp_host_id ls) [h] in
    match id (s_spaces st) with Some _ => (LsEEXIST, st) | None =>
    match id (s_add st) with Some _ => (LsEINPROGRESS, st) | None =>
    match id (s_rem st) with Some _ => (LsEAGAIN, st) | None =>
    match search_space (Some (sp_name ls)) None 0 [s_spaces st; s_add st; s_rem st] with
    | Some _ => (LsEINVAL, st) | None =>
    match search_space None (Some (sp_path ls, sp_offset ls)) 0 [s_spaces st; s_add st; s_rem st] with
    | Some _ => (LsEINVAL, st) | None =>
      let sp := mkSpace (sp_name ls) (sp_path ls) (sp_offset ls) (sp_host_id ls) (s_next_id st) false false false in
      (LsOk, mkSpaces (s_spaces st) (sp :: s_add st) (s_rem st) (s_next_id st + 1))
    end end end end end.

Definition remove_id (id : N) (l : list space) : list space :=
  filter (fun sp => negb (sp_id sp =? id)) l.
Definition with_id (id : N) (l : list space) : list space :=
  filter (fun sp => sp_id sp =? id) l.

(* add_lockspace_wait 1217-1256: result OK and not removed/shutdown *)
Definition add_wait_ok (st : spaces) (id : N) : spaces :=
  if existsb sp_external_remove (with_id id (s_add st))
  then mkSpaces (s_spaces st) (remove_id id (s_add st)) (s_rem st) (s_next_id st)
  else mkSpaces (with_id id (s_add st) ++ s_spaces st) (remove_id id (s_add st)) (s_rem st) (s_next_id st).
(* add_lockspace_wait fail_del *)
Definition add_wait_fail (st : spaces) (id : N) : spaces :=
  mkSpaces (s_spaces st) (remove_id id (s_add st)) (s_rem st) (s_next_id st).

Definition upd_ext (sp : space) : space :=
  mkSpace (sp_name sp) (sp_path sp) (sp_offset sp) (sp_host_id sp) (sp_id sp) true (sp_dead sp) (sp_rindex_op sp).
Definition upd_dead (sp : space) : space :=
  mkSpace (sp_name sp) (sp_path sp) (sp_offset sp) (sp_host_id sp) (sp_id sp) (sp_external_remove sp) true (sp_rindex_op sp).
Definition upd_rx (b : bool) (sp : space) : space :=
  mkSpace (sp_name sp) (sp_path sp) (sp_offset sp) (sp_host_id sp) (sp_id sp) (sp_external_remove sp) (sp_dead sp) b.
Definition upd_id (id : N) (f : space -> space) (l : list space) : list space :=
  map (fun sp => if sp_id sp =? id then f sp else sp) l.

Definition rem_lockspace_start (st : spaces) (ls : space) : ls_rv * spaces :=
  let id h := search_space (Some (sp_name ls)) (Some (sp_path ls, sp_offset ls)) (sp_host_id ls) [h] in
  match id (s_rem st) with Some _ => (LsEINPROGRESS, st) | None =>
  match id (s_add st) with
  | Some sp => (LsOk, mkSpaces (s_spaces st) (upd_id (sp_id sp) upd_ext (s_add st)) (s_rem st) (s_next_id st))
  | None =>
  match id (s_spaces st) with
  | None => (LsENOENT, st)
  | Some sp => if sp_rindex_op sp then (LsEBUSY, st)
               else (LsOk, mkSpaces (upd_id (sp_id sp) upd_ext (s_spaces st)) (s_add st) (s_rem st) (s_next_id st))
  end end end.

(* main.c:893-901: the lease failed, or remove/shutdown was requested *)
Definition main_dead (st : spaces) (id : N) : spaces :=
  mkSpaces (upd_id id upd_dead (s_spaces st)) (s_add st) (s_rem st) (s_next_id st).
(* main_loop: lockspace is done, list_move to spaces_rem *)
Definition main_move_rem (st : spaces) (id : N) : spaces :=
  mkSpaces (remove_id id (s_spaces st)) (s_add st) (with_id id (s_spaces st) ++ s_rem st) (s_next_id st).
(* free_lockspaces: the thread has exited *)
Definition free_lockspace (st : spaces) (id : N) : spaces :=
  mkSpaces (s_spaces st) (s_add st) (remove_id id (s_rem st)) (s_next_id st).

(* src/lockspace.c:1650-1696 lockspace_begin_rindex_op / clear_rindex_op;
   thread_stop is only set together with leaving the list *)
Definition begin_rindex_op (st : spaces) (name : bytes) : ls_rv * spaces :=
  match search_space (Some name) None 0 [s_spaces st] with
  | None => (LsENOENT, st)
  | Some sp => if sp_dead sp then (LsENOSPC, st)
               else if sp_rindex_op sp then (LsEBUSY, st)
               else (LsOk, mkSpaces (upd_id (sp_id sp) (upd_rx true) (s_spaces st)) (s_add st) (s_rem st) (s_next_id st))
  end.
Definition clear_rindex_op (st : spaces) (name : bytes) : spaces :=
  match search_space (Some name) None 0 [s_spaces st] with
  | None => st
  | Some sp => mkSpaces (upd_id (sp_id sp) (upd_rx false) (s_spaces st)) (s_add st) (s_rem st) (s_next_id st)
  end.

Inductive ls_op :=
| OpAdd (ls : space) | OpAddOk (id : N) | OpAddFail (id : N) | OpRem (ls : space)
| OpDead (id : N) | OpMoveRem (id : N) | OpFree (id : N) | OpBeginRx (name : bytes) | OpClearRx (name : bytes).

Definition ls_step (st : spaces) (op : ls_op) : spaces :=
  match op with
  | OpAdd ls => snd (add_lockspace_start st ls)
  | OpAddOk id => add_wait_ok st id
  | OpAddFail id => add_wait_fail st id
  | OpRem ls => snd (rem_lockspace_start st ls)
  | OpDead id => main_dead st id
  | OpMoveRem id => main_move_rem st id
  | OpFree id => free_lockspace st id
  | OpBeginRx n => snd (begin_rindex_op st n)
  | OpClearRx n => clear_rindex_op st n
  end.

Definition ls_init : spaces := mkSpaces [] [] [] 1.
Definition ls_run (ops : list ls_op) : spaces := fold_left ls_step ops ls_init.

Definition all_spaces (st : spaces) : list space := s_spaces st ++ s_add st ++ s_rem st.
