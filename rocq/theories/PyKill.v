(* The Python binding's killpath: python/sanlock.c:1421-1525 parse_killpath_item
   and py_killpath.  What the library and the daemon do with the path and the
   argument string is in KillArgs.v.
   A byte stored behind the end of kpargs is a separate outcome. *)
From Coq Require Import List NArith ZArith Lia Bool Arith String.
From Verif Require Import Bytes Strings KillArgs PyArgs.
Import ListNotations.
Open Scope N_scope.

Inductive kres (A : Type) := KBad | KRaise | KOk (a : A).
Arguments KBad {A}. Arguments KRaise {A}. Arguments KOk {A} _.

(* kpargs[( *kplen)++] = c *)
Definition store (acc : bytes) (c : N) : kres bytes :=
  if Nat.ltb (List.length acc) KLEN then KOk (acc ++ [c]) else KBad.

(* 1437-1440 *)
Fixpoint esc_len (p : bytes) : nat :=
  match p with [] => O | c :: r => if (c =? 32) || (c =? 92) then S (S (esc_len r)) else S (esc_len r) end.

(* 1453-1459 *)
Fixpoint copy_arg (p acc : bytes) : kres bytes :=
  match p with
  | [] => KOk acc
  | c :: r =>
      match (if (c =? 32) || (c =? 92) then store acc 92 else KOk acc) with
      | KOk a1 => match store a1 c with KOk a2 => copy_arg r a2 | e => e end
      | e => e
      end
  end.

(* 1421-1464 parse_killpath_item *)
Definition killpath_item (o : pobj) (acc : bytes) : kres bytes :=
  match conv UPath o with
  | Some (CB p) =>
      if Nat.ltb KLEN (List.length acc + esc_len p + 2) then KRaise
      else match (if Nat.ltb 0 (List.length acc) then store acc 32 else KOk acc) with
           | KOk a => copy_arg p a
           | e => e
           end
  | _ => KRaise
  end.

(* 1499-1505 *)
Fixpoint killpath_items (l : list pobj) (acc : bytes) : kres bytes :=
  match l with
  | [] => KOk acc
  | o :: r => match killpath_item o acc with KOk a => killpath_items r a | e => e end
  end.

(* 1474-1515 py_killpath: the file descriptor, path and arguments given to
   sanlock_killpath.  kpargs is zeroed, a string of 128 bytes has no end *)
Definition py_killpath (path : pobj) (args : list pobj) (fd : Z) : kres (Z * bytes * bytes) :=
  match conv UPath path with
  | Some (CB p) =>
      if negb (sfits 32 fd) then KRaise
      else if Nat.ltb KLEN (List.length p + 1) then KRaise
      else match killpath_items args [] with
           | KOk a => if Nat.ltb (List.length a) KLEN then KOk (fd, p, a) else KBad
           | KRaise => KRaise
           | KBad => KBad
           end
  | _ => KRaise
  end.

(* to the program that is run: the argument vector *)
Definition py_kill_argv (path : pobj) (args : list pobj) (with_pid : bool) (pid : N) : option (list bytes) :=
  match py_killpath path args 0 with KOk (_, p, a) => kill_argv p a with_pid pid | _ => None end.
