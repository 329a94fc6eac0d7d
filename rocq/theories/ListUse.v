(* The functions of the daemon which change a list while walking it, and the
   cache of free resource structures, on the memory of ListH.v. *)
Require Import List ZArith Lia Bool.
From Verif Require Import ListH.
Import ListNotations.
Open Scope Z_scope.

(* The fields of a struct resource these functions look at
   (sanlock_internal.h:141-165).  Names and paths are opaque here: they are
   only compared for equality; 0 is the empty name. *)
Record res := Res {
  r_ls : Z;        (* r.lockspace_name *)
  r_name : Z;      (* r.name *)
  r_disks : Z;     (* r.num_disks *)
  r_path : Z;      (* r.disks[0].path *)
  r_reused : Z;    (* reused *)
  r_release : bool (* flags & R_THREAD_RELEASE *)
}.
Definition fields := Z -> res.
Definition set_fields (a : fields) (p : Z) (r : res) : fields :=
  fun q => if q =? p then r else a q.
(* reading a field of a structure that has been freed is undefined *)
Definition ld_res (m : mem) (a : fields) (p : Z) : option res :=
  match m p with Some _ => Some (a p) | None => None end.

(* resource.c:2597-2611  purge_resource_list: the entries of one lockspace are
   taken off and freed.  The state is the list of the entries freed. *)
Definition purge_body (a : fields) (ls : Z) : body (list Z) := fun m s r =>
  LET f <- ld_res m a r;
  if negb (r_ls f =? ls) then Some (m, s, false)
  else LET m1 <- list_del m r;
       LET m2 <- free_node m1 r;
       Some (m2, s ++ [r], false).
Definition purge_resource_list fuel (m : mem) (a : fields) (head ls : Z) :=
  for_each_safe fuel (purge_body a ls) m [] head.

(* resource.c:2569-2595  release_orphan: the entries of one lockspace, or the
   one with the given name, go to the list of resources to be released.  The
   state is the fields and the count which is returned. *)
Definition orphan_body (ls name rem : Z) : body (fields * Z) := fun m s r =>
  let '(a, count) := s in
  LET f <- ld_res m a r;
  if negb (r_ls f =? ls) then Some (m, s, false)
  else if (name =? 0) || (r_name f =? name) then
    let a1 := set_fields a r (Res (r_ls f) (r_name f) (r_disks f) (r_path f) (r_reused f) true) in
    LET m1 <- list_move m r rem;
    Some (m1, (a1, count + 1), false)
  else Some (m, s, false).
Definition release_orphan fuel (m : mem) (a : fields) (orphans rem ls name : Z) :=
  for_each_safe fuel (orphan_body ls name rem) m (a, 0) orphans.

(* lockspace.c:2044-2059  free_lockspaces: those whose thread has ended are
   taken off and freed.  stopped says what stop_lockspace_thread finds. *)
Definition lockspaces_body (stopped : Z -> bool) : body (list Z) := fun m s sp =>
  match m sp with
  | None => None
  | Some _ =>
    if stopped sp then
      LET m1 <- list_del m sp;
      LET m2 <- free_node m1 sp;
      Some (m2, s ++ [sp], false)
    else Some (m, s, false)
  end.
Definition free_lockspaces fuel (m : mem) (stopped : Z -> bool) (spaces_rem : Z) :=
  for_each_safe fuel (lockspaces_body stopped) m [] spaces_rem.

(* resource.c:58 *)
Definition FREE_RES_COUNT : Z := 128.

(* resource.c:85-94  the search for a structure to throw away: the one used
   least, the oldest first.  The state is rmin, and whether an entry was
   freed before the loop was left. *)
Definition evict_body (a : fields) : body (option Z) := fun m rmin r =>
  LET f <- ld_res m a r;
  if r_reused f =? 0 then
    LET m1 <- list_del m r;
    LET m2 <- free_node m1 r;
    Some (m2, rmin, true)
  else match rmin with
       | None => Some (m, Some r, false)
       | Some q =>
           LET g <- ld_res m a q;
           Some (m, (if r_reused f <? r_reused g then Some r else Some q), false)
       end.

(* resource.c:69-102  free_resource, after the value block has been freed *)
Definition free_resource fuel (m : mem) (a : fields) (count : Z) (head r : Z)
  : option (mem * Z) :=
  if count <? FREE_RES_COUNT then
    LET m1 <- list_add m r head; Some (m1, count + 1)
  else
    match for_each_rev fuel (evict_body a) m None head with
    | Some (m1, _, Left) =>
        LET m2 <- list_add m1 r head; Some (m2, count)
    | Some (m1, Some q, Done) =>
        LET m2 <- list_del m1 q;
        LET m3 <- free_node m2 q;
        LET m4 <- list_add m3 r head; Some (m4, count)
    | Some (m1, None, Done) =>
        LET m2 <- list_add m1 r head; Some (m2, count)
    | _ => None
    end.

(* resource.c:104-127  get_free_resource: what is asked for (token->r) and the
   search; the state is the entry found. *)
Record want := Want { w_ls : Z; w_name : Z; w_disks : Z; w_path : Z }.
Definition get_body (a : fields) (w : want) : body (option Z) := fun m s r =>
  LET f <- ld_res m a r;
  if negb (r_ls f =? w_ls w) then Some (m, s, false)
  else if negb (r_name f =? w_name w) then Some (m, s, false)
  else if negb (r_disks f =? w_disks w) then Some (m, s, false)
  else if negb (r_path f =? w_path w) then Some (m, s, false)
  else LET m1 <- list_del m r; Some (m1, Some r, true).
Definition get_free_resource fuel (m : mem) (a : fields) (count : Z) (head : Z) (w : want)
  : option (mem * fields * Z * option Z) :=
  match for_each fuel (get_body a w) m None head with
  | Some (m1, Some r, Left) =>
      let f := a r in
      Some (m1, set_fields a r (Res (r_ls f) (r_name f) (r_disks f) (r_path f) (r_reused f + 1) (r_release f)),
            count - 1, Some r)
  | Some (m1, None, Done) => Some (m1, a, count, None)
  | _ => None
  end.
