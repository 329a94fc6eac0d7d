(* The intrusive doubly linked list of src/list.h (a copy of the kernel's).
   Memory maps the address of every allocated list_head to its two
   pointers; an access to an address which is not allocated - freed memory or
   one of the two poison values - is undefined behaviour and gives None.
   Stores are done in the order of the source.

   Simplified: container_of (lines 12-26) is pointer arithmetic between a
   structure and its list member; a structure and its member are identified
   here, so that an entry is named by the address of its list_head. *)
Require Import List ZArith Lia Bool.
Import ListNotations.
Open Scope Z_scope.

(* list.h:31-33  struct list_head { next, prev } *)
Definition mem := Z -> option (Z * Z).

Definition ld_next (m : mem) (p : Z) : option Z :=
  match m p with Some (n, _) => Some n | None => None end.
Definition ld_prev (m : mem) (p : Z) : option Z :=
  match m p with Some (_, v) => Some v | None => None end.

Definition upd (m : mem) (p : Z) (c : option (Z * Z)) : mem :=
  fun q => if q =? p then c else m q.

Definition st_next (m : mem) (p v : Z) : option mem :=
  match m p with Some (_, pr) => Some (upd m p (Some (v, pr))) | None => None end.
Definition st_prev (m : mem) (p v : Z) : option mem :=
  match m p with Some (n, _) => Some (upd m p (Some (n, v))) | None => None end.

(* free() of the structure holding the entry *)
Definition free_node (m : mem) (p : Z) : option mem :=
  match m p with Some _ => Some (upd m p None) | None => None end.

Definition bnd {A B} (x : option A) (f : A -> option B) : option B :=
  match x with Some a => f a | None => None end.
Notation "'LET' x <- e ; k" := (bnd e (fun x => k))
  (at level 200, x name, e at level 100, k at level 200, right associativity).

(* list.h:28-29 *)
Definition POISON1 : Z := 1048832.   (* 0x00100100 *)
Definition POISON2 : Z := 2097664.   (* 0x00200200 *)

(* list.h:40-44  INIT_LIST_HEAD *)
Definition list_init (m : mem) (h : Z) : option mem :=
  LET m1 <- st_next m h h; st_prev m1 h h.

(* list.h:52-60  __list_add *)
Definition list_add_between (m : mem) (new prev next : Z) : option mem :=
  LET m1 <- st_prev m next new;
  LET m2 <- st_next m1 new next;
  LET m3 <- st_prev m2 new prev;
  st_next m3 prev new.

(* list.h:70-73  list_add *)
Definition list_add (m : mem) (new head : Z) : option mem :=
  LET n <- ld_next m head; list_add_between m new head n.

(* list.h:84-87  list_add_tail *)
Definition list_add_tail (m : mem) (new head : Z) : option mem :=
  LET p <- ld_prev m head; list_add_between m new p head.

(* list.h:96-100  __list_del *)
Definition list_del_between (m : mem) (prev next : Z) : option mem :=
  LET m1 <- st_prev m next prev; st_next m1 prev next.

(* list.h:108-113  list_del *)
Definition list_del (m : mem) (e : Z) : option mem :=
  LET p <- ld_prev m e;
  LET n <- ld_next m e;
  LET m1 <- list_del_between m p n;
  LET m2 <- st_next m1 e POISON1;
  st_prev m2 e POISON2.

(* list.h:153-157  list_move *)
Definition list_move (m : mem) (e head : Z) : option mem :=
  LET p <- ld_prev m e;
  LET n <- ld_next m e;
  LET m1 <- list_del_between m p n;
  list_add m1 e head.

(* list.h:186-189  list_empty *)
Definition list_empty (m : mem) (h : Z) : option bool :=
  LET n <- ld_next m h; Some (n =? h).

(* list.h:361-362  list_first_entry *)
Definition list_first_entry (m : mem) (h : Z) : option Z := ld_next m h.

(* What a loop has come to: it ended normally (Done), it was left by break,
   goto or return inside the body (Left), or it needs more iterations than
   the number given (More). *)
Inductive loop_end := Done | Left | More.

(* A loop body works on the memory and on the state of the caller, and says
   whether the loop is left. *)
Definition body (S : Type) := mem -> S -> Z -> option (mem * S * bool).

(* list.h:431-434  list_for_each_entry, from the iteration at pos *)
Fixpoint for_each_from {S} (fuel : nat) (b : body S) (m : mem) (s : S) (pos head : Z)
  : option (mem * S * loop_end) :=
  match fuel with
  | O => Some (m, s, More)
  | Datatypes.S f =>
    if pos =? head then Some (m, s, Done)
    else match b m s pos with
         | None => None
         | Some (m1, s1, true) => Some (m1, s1, Left)
         | Some (m1, s1, false) =>
             LET n <- ld_next m1 pos; for_each_from f b m1 s1 n head
         end
  end.
Definition for_each {S} fuel (b : body S) (m : mem) (s : S) (head : Z) :=
  LET n <- ld_next m head; for_each_from fuel b m s n head.

(* list.h:442-445  list_for_each_entry_reverse *)
Fixpoint for_each_rev_from {S} (fuel : nat) (b : body S) (m : mem) (s : S) (pos head : Z)
  : option (mem * S * loop_end) :=
  match fuel with
  | O => Some (m, s, More)
  | Datatypes.S f =>
    if pos =? head then Some (m, s, Done)
    else match b m s pos with
         | None => None
         | Some (m1, s1, true) => Some (m1, s1, Left)
         | Some (m1, s1, false) =>
             LET n <- ld_prev m1 pos; for_each_rev_from f b m1 s1 n head
         end
  end.
Definition for_each_rev {S} fuel (b : body S) (m : mem) (s : S) (head : Z) :=
  LET n <- ld_prev m head; for_each_rev_from fuel b m s n head.

(* list.h:505-509  list_for_each_entry_safe: n is loaded before the body
   runs, and from n itself when stepping *)
Fixpoint for_each_safe_from {S} (fuel : nat) (b : body S) (m : mem) (s : S) (pos n head : Z)
  : option (mem * S * loop_end) :=
  match fuel with
  | O => Some (m, s, More)
  | Datatypes.S f =>
    if pos =? head then Some (m, s, Done)
    else match b m s pos with
         | None => None
         | Some (m1, s1, true) => Some (m1, s1, Left)
         | Some (m1, s1, false) =>
             LET n' <- ld_next m1 n; for_each_safe_from f b m1 s1 n n' head
         end
  end.
Definition for_each_safe {S} fuel (b : body S) (m : mem) (s : S) (head : Z) :=
  LET p <- ld_next m head;
  LET n <- ld_next m p; for_each_safe_from fuel b m s p n head.
