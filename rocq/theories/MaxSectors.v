(* The size of the requests to the disk of a lockspace: src/lockspace.c:662-739
   (set_lockspace_max_sectors_kb), 51-112 (helper_set_max_sectors_kb), 826; src/diskio.c:34-61
   (read_sysfs_uint), 63-86 (write_sysfs_uint), 88-166 (read_sysfs_size, write_sysfs_size,
   set_max_sectors_kb); src/helper.c:225-229; src/sanlock_internal.h:335-337.
   The settings are those of ConfFile.v.  A file of sysfs is the list of its characters, None when
   stat, open or read fails; it has no 0.  That the number reaches the helper as text is left out:
   it fits an unsigned int and atoi gives it back. *)
From Coq Require Import List NArith ZArith Bool Lia.
From Verif Require Import Bytes ArgStr ConfFile.
Import ListNotations.
Open Scope N_scope.

Definition u32z (z : Z) : N := Z.to_N (z mod 2 ^ 32).

(* diskio.c:34-61: strlen leaves buf; the result and what *val becomes *)
Inductive rd := Over | Rd (rv : Z) (val : N).
Definition chomp (s : bytes) : bytes :=
  match rev s with x :: r => if x =? 10 then rev r else s | [] => [] end.
Definition read_uint (f : option bytes) (val : N) : rd :=
  match f with
  | None => Rd (-1) val
  | Some f =>
      let buf := firstn 32 f in
      if (32 <=? length buf)%nat then Over else
      match chomp buf with [] => Rd (Z.of_nat (length buf)) val | s => Rd 0 (u32z (atoi s)) end
  end.

(* the result of a write to the pipe of the helper *)
Inductive send := SEintr | SOk | SFail.
Fixpoint sent (l : list send) : option bool :=
  match l with SEintr :: l => sent l | SOk :: _ => Some true | SFail :: _ => Some false | [] => None end.

(* st_reg: fstat failed, or whether it is a regular file; align_size in bytes *)
Record inp := mkInp { st_reg : option bool; ignore : bool; align : bool; num : Z; align_size : N;
  hw : option bytes; cur : option bytes; root : bool; helper : bool; write_ok : bool; sends : list send }.
(* what is done to the disk: nothing, a write by the daemon and whether it was accepted, a message
   to the helper *)
Inductive eff := ENone | EWrite (v : N) (ok : bool) | EHelper (v : N).
(* UB; the retry has no end; the effect and set_max_sectors_kb of the lockspace *)
Inductive res := OverRead | Stuck | Done (e : eff) (reported : N).

(* set_max_sectors_kb and helper_set_max_sectors_kb, and 733-738 *)
Definition set_kb (i : inp) (v : N) : res :=
  match read_uint (cur i) 0 with
  | Over => OverRead
  | Rd rv m =>
      if (rv <? 0)%Z then Done ENone 0
      else if m =? v then Done ENone v
      else if root i then Done (EWrite v (write_ok i)) (if write_ok i then v else 0)
      else if negb (helper i) then Done ENone 0
      else match sent (sends i) with Some true => Done (EHelper v) v | Some false => Done ENone 0 | None => Stuck end
  end.

(* 662-739 *)
Definition set_lockspace (i : inp) : res :=
  match st_reg i with
  | None | Some true => Done ENone 0
  | Some false =>
      if ignore i then Done ENone 0
      else if negb (align i) && (num i =? 0)%Z then Done ENone 0
      else
        let want := if align i then align_size i / 1024 else u32z (num i) in
        match read_uint (hw i) 0 with
        | Over => OverRead
        | Rd rv h =>
            if (rv <? 0)%Z || (h =? 0) then Done ENone 0
            else if h <? want then
              if h <? 1024 then Done ENone 0
              else if want <? 1024 then Done ENone 0
              else set_kb i 1024
            else set_kb i want
        end
  end.

(* the disk afterwards: the kernel takes what is written; what the helper does is not known *)
Definition disk_after (c : N) (e : eff) (helper_wrote : bool) : N :=
  match e with ENone => c | EWrite v ok => if ok then v else c | EHelper v => if helper_wrote then v else c end.
