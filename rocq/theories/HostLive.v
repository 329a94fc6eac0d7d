(* Who still holds a shared lease when another host wants the exclusive one.
   src/resource.c:329-394 (host_live), 414-537 (write_host_block as it is called by
   clear_dead_shared), 539-585 (read_mode_block), 587-651 (clear_dead_shared).

   What the daemon knows about the other hosts is HostStatus.v; host_info is in
   Acquire.v.  Simplifications: a sector of the lease area is the two numbers of its
   mode block and the rest as one number; allocation of the buffers succeeds; the
   sector size of the token is known (it is set before, resource.c:1800). *)
From Coq Require Import List NArith ZArith Lia Bool ZifyBool ZifyN.
From Verif Require Import HostStatus.
Import ListNotations.
Open Scope N_scope.

(* resource.c:335-394.  [info]: what host_info gives, None when it fails; [now]:
   monotime(), read after host_info; dead seconds: timeouts.c calc_host_dead_seconds *)
Definition host_live (fire now : N) (info : option hstatus) (gen : N) : bool :=
  match info with
  | None => true                                              (* 343-348 *)
  | Some hs =>
      let dead := 8 * hs_io_timeout hs + fire in
      if hs_last_check hs =? 0 then true                      (* 350 *)
      else if hs_timestamp hs =? 0 then false                 (* 357 *)
      else if gen <? hs_owner_generation hs then false        (* 363 *)
      else if (hs_last_live hs =? 0) && (dead <? now - hs_first_check hs) then false   (* 375 *)
      else if negb (hs_last_live hs =? 0) && (dead <? now - hs_last_live hs) then false (* 382 *)
      else true
  end.

(* the sector of a host in the lease area: mode block (flag MBLOCK_SHARED, generation)
   and ballot block *)
Record sec := mkSec { x_shared : bool; x_gen : N; x_dblk : N }.
Definition zsec : sec := mkSec false 0 0.

(* a disk: the sector of each host id *)
Definition disk := N -> sec.
Definition put (d : disk) (h : N) (x : sec) : disk := fun q => if q =? h then x else d q.

(* result of one disk operation; a failed write may have reached the disk *)
Inductive ior := IoOk | IoErr (landed : bool).

(* 564-579: the loop ends after the first disk ("FIXME: combine results") *)
Definition read_mode_block (ds : list disk) (r : ior) (h : N) : option (bool * N) :=
  match ds with
  | [] => Some (false, 0)          (* mb as cleared by the caller *)
  | d :: _ => match r with IoOk => Some (x_shared (d h), x_gen (d h)) | IoErr _ => None end
  end.

(* 498-507 with mb_gen 0, mb_flags 0, pd NULL: a cleared sector is written to the disks
   in turn, up to the first failure.  [rs]: the results, one for each disk *)
Fixpoint write_zero (ds : list disk) (rs : list ior) (h : N) : bool * list disk :=
  match ds with
  | [] => (true, [])
  | d :: ds' =>
      match hd IoOk rs with
      | IoOk => let (ok, r) := write_zero ds' (tl rs) h in (ok, put d h zsec :: r)
      | IoErr landed => (false, (if landed then put d h zsec else d) :: ds')
      end
  end.

(* 587-651.  [ids]: the host ids still to look at; [bm]: token->shared_bitmap; [live]:
   host_live at the moment it is called for this host; [rd], [wr]: results of the disk
   operations for this host.  The result is None for an error, else the live count. *)
Fixpoint clear_loop (own : N) (bm : N -> bool) (live : N -> N -> bool)
    (rd : N -> ior) (wr : N -> list ior) (ids : list N) (n : nat) (ds : list disk)
  : option nat * list disk :=
  match ids with
  | [] => (Some n, ds)
  | h :: r =>
      let go := clear_loop own bm live rd wr r in
      if h =? own then go n ds                                (* 597 *)
      else if negb (bm h) then go n ds                        (* 600 *)
      else match read_mode_block ds (rd h) h with
           | None => (None, ds)                               (* 606 *)
           | Some (sh, gen) =>
               if negb sh then go n ds                        (* 620 *)
               else if gen =? 0 then go n ds                  (* 623 *)
               else if live h gen then go (S n) ds            (* 630 *)
               else match write_zero ds (wr h) h with
                    | (true, ds') => go n ds'
                    | (false, ds') => (None, ds')             (* 639 *)
                    end
           end
  end.

Definition clear_dead_shared own bm live rd wr (num_hosts : nat) ds :=
  clear_loop own bm live rd wr (map N.of_nat (seq 1 num_hosts)) 0 ds.
