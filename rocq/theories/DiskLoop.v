(* Reads and writes without AIO: src/diskio.c:375-463 do_write, 465-548 do_read,
   827-862 _write_sectors, 869-913 write_sector and write_sectors, 932-977
   read_sectors.  This is the path taken with use_aio=0 and when the AIO context
   of a task cannot be made (task.c:60-64).

   A file is its bytes and the file position of the descriptor.  What the kernel
   answers is a list, one entry for each system call; a transfer moves at least
   one byte and at most what was asked for, and moves the position.
   Left out: the timing and debug messages, the length of len (int). *)
From Coq Require Import List NArith ZArith Lia Bool Arith.
From Verif Require Import Bytes.
Import ListNotations.
Open Scope N_scope.

Definition content := N -> N.
(* Moved k: k + 1 bytes, or all that are left if these are fewer *)
Inductive answer := Moved (k : nat) | Zero | Intr | Fault.
Inductive io (A : Type) := Done (a : A) (rv : Z) | Running (a : A).
Arguments Done {A}. Arguments Running {A}.

(* lseek(fd, offset, SEEK_SET): the offset is signed for the kernel *)
Definition lseek (pos offset : N) : N * N :=
  if offset <? 2 ^ 63 then (offset, offset) else (2 ^ 64 - 1, pos).

(* bytes b at position p *)
Definition place (f : content) (p : N) (b : bytes) : content :=
  fun x => if (p <=? x) && (x <? p + N.of_nat (length b)) then nth (N.to_nat (x - p)) b 0 else f x.

(* 409-432; buf is what is left to write *)
Fixpoint write_loop (f : content) (pos : N) (buf : bytes) (ans : list answer) : io content :=
  match ans with
  | [] => Running f
  | Intr :: r => write_loop f pos buf r
  | Fault :: _ => Done f (-1)
  | Zero :: r => match buf with [] => Done f 0 | _ => write_loop f pos buf r end
  | Moved k :: r =>
      let n := Nat.min (S k) (length buf) in
      let f' := place f pos (firstn n buf) in
      if Nat.eqb n (length buf) then Done f' 0 else write_loop f' (pos + N.of_nat n) (skipn n buf) r
  end.

(* 375-463: 401 compares the result with the offset as 64 bit numbers *)
Definition do_write (f : content) (pos offset : N) (buf : bytes) (ans : list answer) : io content :=
  let (ret, pos') := lseek pos offset in
  if ret =? offset then write_loop f pos' buf ans else Done f (-1).

(* the bytes from p on *)
Fixpoint fetch (f : content) (p : N) (n : nat) : bytes := match n with O => [] | S m => f p :: fetch f (p + 1) m end.

(* 498-516; got is what has been read, n what is left *)
Fixpoint read_loop (f : content) (pos : N) (got : bytes) (n : nat) (ans : list answer) : io bytes :=
  match n with
  | O => Done got 0
  | _ =>
      match ans with
      | [] => Running got
      | Intr :: r => read_loop f pos got n r
      | Fault :: _ => Done got (-1)
      | Zero :: _ => Done got (-1)
      | Moved k :: r =>
          let m := Nat.min (S k) n in
          read_loop f (pos + N.of_nat m) (got ++ fetch f pos m) (n - m) r
      end
  end.
Definition do_read (f : content) (pos offset : N) (n : nat) (ans : list answer) : io bytes :=
  let (ret, pos') := lseek pos offset in
  if ret =? offset then read_loop f pos' [] n ans else Done [] (-1).

(* 837, 948: 64 bit arithmetic *)
Definition sector_offset (disk : N) (ss nr : N) : N := (disk + nr * ss) mod 2 ^ 64.

(* 869-889 with 827-862; memory is not short *)
Definition write_sector (f : content) (pos disk : N) (ss nr : N) (data : bytes) (ans : list answer) : io content :=
  if negb ((ss =? 4096) || (ss =? 512)) then Done f (-22)
  else if ss <? N.of_nat (length data) then Done f (-1)
  else do_write f pos (sector_offset disk ss nr) (data ++ repeat 0 (N.to_nat ss - length data)) ans.

(* 893-913 *)
Definition write_sectors (f : content) (pos disk : N) (ss nr cnt : N) (data : bytes) (ans : list answer) : io content :=
  if negb ((ss =? 4096) || (ss =? 512)) then Done f (-22)
  else if negb (N.of_nat (length data) =? cnt * ss) then Done f (-1)
  else do_write f pos (sector_offset disk ss nr) data ans.

(* 932-977: the caller's buffer gets the first data_len bytes, data_len <= count *
   sector_size; None is a buffer left as it was *)
Definition read_sectors (f : content) (pos disk : N) (ss nr : N) (cnt : nat) (len : nat) (ans : list answer) : option bytes * Z :=
  if negb ((ss =? 512) || (ss =? 4096)) then (None, (-22)%Z)
  else match do_read f pos (sector_offset disk ss nr) (cnt * N.to_nat ss) ans with
       | Done b rv => if (rv =? 0)%Z then (Some (firstn len b), 0%Z) else (None, rv)
       | Running _ => (None, 1%Z)
       end.
