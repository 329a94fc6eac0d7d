(* The file descriptors of the lockspace threads.
   src/lockspace.c:749-1040 (lockspace_thread), 1068-1076 (struct space is zeroed, so
   wd_fd is 0, host_id_disk.fd is -1), src/diskio.c:282-329 (open_disk),
   src/watchdog.c:41-182 (open_watchdog, connect_watchdog, activate_watchdog,
   disconnect_watchdog).

   Any number of lockspace threads, and the rest of the daemon, share one table of
   descriptors; open gives the lowest free number.  Each step of a thread is one call
   whose result is part of the event.  What the I/O reads and writes is not modelled
   here, only where it goes: what the descriptor refers to at that moment. *)
From Coq Require Import List Lia Bool Arith.
Import ListNotations.

(* what a descriptor refers to *)
Inductive file :=
| Other                (* of another part of the daemon; 0, 1 and 2 at the start *)
| Disk (t : nat)       (* the disk of lockspace t *)
| Wd (t : nat).        (* the connection of lockspace t to wdmd *)

Definition table := nat -> option file.
Definition tab0 : table := fun f => if f <? 3 then Some Other else None.
Definition set (T : table) (f : nat) (x : option file) : table := fun g => if g =? f then x else T g.
Definition lowest (T : table) (f : nat) : bool :=
  match T f with None => forallb (fun g => match T g with Some _ => true | None => false end) (seq 0 f) | Some _ => false end.

Inductive pc :=
| P0          (* before open_disk *)
| PSizes      (* delta_read_lockspace_sizes .. malloc *)
| PConn       (* connect_watchdog *)
| POpenWd     (* open_watchdog *)
| PAcq        (* delta_lease_acquire *)
| PAct        (* activate_watchdog *)
| PLoop
| PRel        (* delta_lease_release *)
| PClose      (* close(sp->host_id_disk.fd) *)
| PEnd.

Record loc := mkLoc {
  l_pc : pc;
  l_disk : nat;       (* sp->host_id_disk.fd *)
  l_con : nat;        (* wd_con *)
  l_wd : nat;         (* sp->wd_fd *)
  l_ok : bool         (* delta_result == SANLK_OK *)
}.
Definition loc0 : loc := mkLoc P0 0 0 0 false.

Record fst8 := mkF {
  f_tab : table;
  f_loc : nat -> loc;
  f_closed : list (nat * option file);     (* thread, what the descriptor it closed referred to *)
  f_io : list (nat * option file)          (* thread, where its disk I/O went *)
}.
Definition fds0 : fst8 := mkF tab0 (fun _ => loc0) [] [].

Inductive fev :=
| FStep (t : nat) (ok : bool) (fd : nat)   (* the next call of thread t; fd: what open gives *)
| FRenew (t : nat) (ok : bool)
| FStop (t : nat)                          (* thread_stop is seen *)
| FOpen (fd : nat)                         (* another part of the daemon *)
| FClose (fd : nat).

Definition setl (L : nat -> loc) (t : nat) (x : loc) : nat -> loc := fun u => if u =? t then x else L u.

Definition close (s : fst8) (t f : nat) (l : loc) : fst8 :=
  mkF (set (f_tab s) f None) (setl (f_loc s) t l) ((t, f_tab s f) :: f_closed s) (f_io s).
Definition go (s : fst8) (t : nat) (l : loc) : fst8 := mkF (f_tab s) (setl (f_loc s) t l) (f_closed s) (f_io s).
Definition io (s : fst8) (t : nat) : fst8 :=
  mkF (f_tab s) (f_loc s) (f_closed s) ((t, f_tab s (l_disk (f_loc s t))) :: f_io s).
Definition open (s : fst8) (f : nat) (x : file) : fst8 := mkF (set (f_tab s) f (Some x)) (f_loc s) (f_closed s) (f_io s).

(* use: com.use_watchdog *)
Definition fstep (use : bool) (s : fst8) (e : fev) : option fst8 :=
  match e with
  | FStep t ok fd =>
      let l := f_loc s t in
      let at_pc p := mkLoc p (l_disk l) (l_con l) (l_wd l) (l_ok l) in
      match l_pc l with
      | P0 =>                                                       (* 781-788 *)
          if ok then if lowest (f_tab s) fd
                     then Some (go (open s fd (Disk t)) t (mkLoc PSizes fd (l_con l) (l_wd l) false))
                     else None
          else Some (go s t (mkLoc PEnd (l_disk l) (l_con l) (l_wd l) false))
      | PSizes => Some (go (io s t) t (at_pc (if ok then PConn else PClose)))      (* 790-834 *)
      | PConn =>                                                    (* 837-843 *)
          if negb use then Some (go s t (mkLoc POpenWd (l_disk l) 0 (l_wd l) (l_ok l)))
          else if ok then if lowest (f_tab s) fd
                          then Some (go (open s fd (Wd t)) t (mkLoc POpenWd (l_disk l) fd (l_wd l) (l_ok l)))
                          else None
          else Some (go s t (at_pc PClose))
      | POpenWd =>                                                  (* 857-865 *)
          if negb use || ok then Some (go s t (at_pc PAcq))
          else Some (close s t (l_wd l) (at_pc PClose))             (* disconnect_watchdog(sp) *)
      | PAcq =>                                                     (* 871-896 *)
          if ok then Some (go (io s t) t (mkLoc PAct (l_disk l) (l_con l) (l_wd l) true))
          else if use then Some (close (io s t) t (l_con l) (at_pc PClose))
          else Some (go (io s t) t (at_pc PClose))
      | PAct =>                                                     (* 887-891, watchdog.c:93-148 *)
          if negb use then Some (go s t (at_pc PLoop))
          else if ok then Some (go s t (mkLoc PLoop (l_disk l) (l_con l) (l_con l) (l_ok l)))
          else Some (close s t (l_con l) (at_pc PRel))
      | PRel => Some (go (io s t) t (at_pc PClose))                 (* 1012-1014 *)
      | PClose => Some (close s t (l_disk l) (at_pc PEnd))          (* 1016-1017 *)
      | PLoop | PEnd => None
      end
  | FRenew t ok =>
      let l := f_loc s t in
      match l_pc l with
      | PLoop => Some (go (io s t) t (mkLoc PLoop (l_disk l) (l_con l) (l_wd l) ok))
      | _ => None
      end
  | FStop t =>                                                      (* 1010, disconnect_watchdog *)
      let l := f_loc s t in
      let l' := mkLoc (if l_ok l then PRel else PClose) (l_disk l) (l_con l) (l_wd l) (l_ok l) in
      match l_pc l with
      | PLoop => if use then Some (close s t (l_wd l) l') else Some (go s t l')
      | _ => None
      end
  | FOpen fd => if lowest (f_tab s) fd then Some (open s fd Other) else None
  | FClose fd => match f_tab s fd with Some Other => Some (mkF (set (f_tab s) fd None) (f_loc s) (f_closed s) (f_io s)) | _ => None end
  end.

Fixpoint frun (use : bool) (s : fst8) (es : list fev) : option fst8 :=
  match es with
  | [] => Some s
  | e :: r => match fstep use s e with Some s' => frun use s' r | None => None end
  end.
