(* The daemon's log: src/log.c:89-110 (_log_save_ent), 253-288 (log_thread_fn), and
   the dump buffer 64-87 (_log_save_dump), 232-251 (copy_log_dump).  Every access
   to the shared variables is under log_mutex, so a call of _log_save_ent and the
   writer's locked section are single steps.  The time between unlocking and
   write_entry is kept: the message is then "in hand". *)
From Coq Require Import List NArith Arith Lia Bool.
Import ListNotations.

(* a message stands for level and text *)
Definition msg := N.
(* what the writer puts out: 216-230 *)
Inductive out := Line (m : msg) | Dropped (n : nat).

Record ring := mkRing {
  rg_ents : list msg;      (* log_ents[log_num_ents] *)
  rg_head : nat;           (* log_head_ent *)
  rg_tail : nat;           (* log_tail_ent *)
  rg_dropped : nat;        (* log_dropped; its wrap at 2^32 is not modelled *)
  rg_pending : nat;        (* log_pending_ents *)
  rg_hand : option (msg * nat) }.   (* the writer's copy: str/level, prev_dropped *)

Definition ring_size (r : ring) : nat := length (rg_ents r).
Definition ring_init (n : nat) : ring := mkRing (repeat 0%N n) 0 0 0 0 None.

Fixpoint list_set {A} (l : list A) (i : nat) (x : A) : list A :=
  match l, i with [] , _ => [] | _ :: r, O => x :: r | y :: r, S j => y :: list_set r j x end.

(* 89-110; the bool tells whether the message was accepted *)
Definition log_save_ent (r : ring) (m : msg) : ring * bool :=
  if Nat.eqb (rg_pending r) (ring_size r)
  then (mkRing (rg_ents r) (rg_head r) (rg_tail r) (S (rg_dropped r)) (rg_pending r) (rg_hand r), false)
  else (mkRing (list_set (rg_ents r) (rg_head r) m) (S (rg_head r) mod ring_size r) (rg_tail r)
          (rg_dropped r) (S (rg_pending r)) (rg_hand r), true).

(* 260-277: the writer, holding the lock and nothing in hand; None: it waits *)
Definition writer_take (r : ring) : option ring :=
  match rg_hand r with
  | Some _ => None
  | None =>
    if Nat.eqb (rg_head r) (rg_tail r) then None
    else Some (mkRing (rg_ents r) (rg_head r) (S (rg_tail r) mod ring_size r) 0 (rg_pending r - 1)
                 (Some (nth (rg_tail r) (rg_ents r) 0%N, rg_dropped r)))
  end.

(* 279-284 *)
Definition writer_put (r : ring) : option (ring * list out) :=
  match rg_hand r with
  | None => None
  | Some (m, d) =>
    Some (mkRing (rg_ents r) (rg_head r) (rg_tail r) (rg_dropped r) (rg_pending r) None,
          (if Nat.eqb d 0 then [] else [Dropped d]) ++ [Line m])
  end.

(* ---------------- runs ---------------- *)
(* ev_log m: some thread logs m.  The run keeps the accepted messages, all offered
   ones that were dropped (their number), and everything put out. *)
Inductive event := EvLog (m : msg) | EvTake | EvPut.
Record lrun := mkRun { lr_ring : ring; lr_accepted : list msg; lr_lost : nat; lr_out : list out }.
Definition run_init (n : nat) : lrun := mkRun (ring_init n) [] 0 [].
Definition lstep (s : lrun) (e : event) : option lrun :=
  match e with
  | EvLog m =>
    let '(r, ok) := log_save_ent (lr_ring s) m in
    Some (mkRun r (if ok then lr_accepted s ++ [m] else lr_accepted s)
            (if ok then lr_lost s else S (lr_lost s)) (lr_out s))
  | EvTake => match writer_take (lr_ring s) with
              | Some r => Some (mkRun r (lr_accepted s) (lr_lost s) (lr_out s)) | None => None end
  | EvPut => match writer_put (lr_ring s) with
             | Some (r, o) => Some (mkRun r (lr_accepted s) (lr_lost s) (lr_out s ++ o)) | None => None end
  end.
Fixpoint lsteps (s : lrun) (es : list event) : option lrun :=
  match es with [] => Some s | e :: r => match lstep s e with Some s' => lsteps s' r | None => None end end.

(* ---------------- the dump buffer ---------------- *)
Record dump := mkDump { dp_buf : list N; dp_point : nat; dp_wrap : bool }.
Definition dump_init (size : nat) : dump := mkDump (repeat 0%N size) 0 false.
Definition dump_wrap_check (size : nat) (b : list N) (p : nat) (w : bool) : dump :=
  if Nat.eqb p size then mkDump b 0 true else mkDump b p w.

(* None: a write outside log_dump *)
Definition put_byte (d : dump) (c : N) : option dump :=
  if Nat.ltb (dp_point d) (length (dp_buf d))
  then Some (dump_wrap_check (length (dp_buf d)) (list_set (dp_buf d) (dp_point d) c) (S (dp_point d)) (dp_wrap d))
  else None.
Fixpoint put_bytes (d : dump) (s : list N) : option dump :=
  match s with [] => Some d | c :: r => match put_byte d c with Some d' => put_bytes d' r | None => None end end.
(* memcpy *)
Definition copy_in (b : list N) (p : nat) (s : list N) : list N :=
  firstn p b ++ s ++ skipn (p + length s) b.

(* 64-87 *)
Definition log_save_dump (d : dump) (s : list N) : option dump :=
  let size := length (dp_buf d) in
  if Nat.ltb (length s) (size - dp_point d)
  then if Nat.leb (dp_point d + length s) size
       then Some (dump_wrap_check size (copy_in (dp_buf d) (dp_point d) s) (dp_point d + length s) (dp_wrap d))
       else None
  else put_bytes d s.
Fixpoint save_dumps (d : dump) (l : list (list N)) : option dump :=
  match l with [] => Some d | s :: r => match log_save_dump d s with Some d' => save_dumps d' r | None => None end end.

(* 232-251 *)
Definition copy_log_dump (d : dump) : list N :=
  if negb (dp_wrap d) && Nat.eqb (dp_point d) 0 then []
  else if dp_wrap d then skipn (dp_point d) (dp_buf d) ++ firstn (dp_point d) (dp_buf d)
  else firstn (dp_point d - 1) (dp_buf d).

(* ---------------- the line buffer, 136-186 ---------------- *)
(* [a]: strftime's count, [b]: the first snprintf's return value, [ret]: what
   vsnprintf returns.  The result is the final pos, None a store outside
   log_str[512]. *)
Definition LOG_STR_LEN : nat := 512.
Definition log_line_pos (a b ret : nat) : option nat :=
  let len := LOG_STR_LEN - 2 in
  let pos := a + b in
  let pos := if Nat.leb (len - pos) ret then len - 1 else pos + ret in
  if Nat.leb LOG_STR_LEN (S pos) then None else Some (S (S pos)).
